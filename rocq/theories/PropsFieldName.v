(* Which names of header fields are accepted: C93.  Vocabulary: taken, add_field of
   ValueSpec.v, messages of Http1Wire.v. *)

From Coq Require Import NArith List Bool Arith String.
From Verif Require Import Bytes Http1Model Http1Spec Http1Protocol Http1Wire FormSamples
  ValueSpec ValueSamples FieldNameFacts FieldNameless FieldNameBodies PreambleSamples ExtSamples FieldNameSamples.
Import ListNotations.
Local Open Scope N_scope.
Local Open Scope list_scope.

(* RFC 7230: field-name = token, which is not empty; an empty name is accepted. *)
Theorem C93_names_refuted : exists req v,
  wf_request req /\ taken v /\
  let '(_, log, rest, o) := feed yes (init_head new) [render_request (add_field req (Header [] [32] v []))] in
  o = OFinished /\ rest = [] /\
  flat log = seen_request (add_field req (Header [] [32] v [])) /\
  seen_header (Header [] [32] v []) = map (FByte KHeaderValue) v.
Proof. exact nameless_accepted. Qed.
Print Assumptions C93_names_refuted.

(* In every case: a field with an empty name anywhere among the fields of a request does not
   end in an error; its value is reported behind that of the field before it. *)
Theorem C93_empty_name : forall h q req pad v fs tail segs,
  wf_request req -> padding pad -> taken v -> Forall wf_header fs ->
  hd 0 (q_method req) <> 72 \/ (9 <= List.length (strip (hd [] segs)))%nat ->
  List.concat segs = render_request (Request (q_blank req) (q_method req) (q_url req) (q_version req) (q_headers req ++ Header [] pad v [] :: fs)) ++ tail ->
  exists p' log, feed h (init_head q) segs = (p', log, tail, OFinished) /\
    flat log = seen_request (Request (q_blank req) (q_method req) (q_url req) (q_version req) (q_headers req ++ Header [] pad v [] :: fs)).
Proof. exact nameless_taken. Qed.
Print Assumptions C93_empty_name.

Example C93_empty_name_case :
  wf_request a_get /\ taken (bs "v") /\
  map (fun k => let '(_, log, rest, o) := feed yes (init_head new) (cut k 30 (get_before ++ bs ": v" ++ crlf ++ crlf ++ bs "Z")) in
                (data_of KHeaderName log, data_of KHeaderValue log, rest, o)) [1%nat; 4%nat; 90%nat] =
    [(bs "host", bs "a.bv", bs "Z", OFinished); (bs "host", bs "a.bv", bs "Z", OFinished); (bs "host", bs "a.bv", bs "Z", OFinished)].
Proof. split; [exact a_get_ok|]. split; [split; reflexivity|]. vm_compute. reflexivity. Qed.

(* Behind a name, a byte that cannot be in a name and is no colon, such as white space or the
   CR of a line without a colon, ends in an error at this byte; likewise in the place of a
   name, unless it is the white space of a folded line or the CR that ends the fields. *)
Theorem C93_request_name : forall h q req before n b tail segs,
  wf_request req -> render_request req = before ++ crlf ->
  hd 0 (q_method req) <> 72 \/ (9 <= List.length (strip (hd [] segs)))%nat ->
  Forall (fun c => tchar c = true) n -> tchar b = false -> b <> 58 -> b < 255 ->
  (n = [] -> b <> 13 /\ b <> 32 /\ b <> 9) ->
  List.concat segs = before ++ n ++ b :: tail ->
  exists p' log rest, feed h (init_head q) segs = (p', log, rest, OError (ErHeaderName b)).
Proof. exact request_name_lost. Qed.
Print Assumptions C93_request_name.

Example C93_request_name_case :
  wf_request a_get /\ render_request a_get = get_before ++ crlf /\
  Forall (fun c => tchar c = true) (bs "Content-Length") /\ tchar 32 = false /\
  map (fun k => parse_head (cut k 60 (get_before ++ bs "Content-Length" ++ 32 :: bs ": 5" ++ crlf ++ crlf ++ bs "12345")))
      [1%nat; 4%nat; 90%nat] = [OError (ErHeaderName 32); OError (ErHeaderName 32); OError (ErHeaderName 32)].
Proof.
  split; [exact a_get_ok|]. split; [reflexivity|]. split; [repeat (constructor; [reflexivity|]); constructor|].
  split; [reflexivity|]. vm_compute. reflexivity.
Qed.

Theorem C93_response_name : forall h q res before n b tail segs,
  wf_response res -> render_response res = before ++ crlf ->
  Forall (fun c => tchar c = true) n -> tchar b = false -> b <> 58 -> b < 255 ->
  (n = [] -> b <> 13 /\ b <> 32 /\ b <> 9) ->
  List.concat segs = before ++ n ++ b :: tail ->
  exists p' log rest, feed h (init_head q) segs = (p', log, rest, OError (ErHeaderName b)).
Proof. exact response_name_lost. Qed.
Print Assumptions C93_response_name.

Example C93_response_name_case :
  wf_response an_ok /\ render_response an_ok = ok_before ++ crlf /\
  map (fun k => parse_head (cut k 60 (ok_before ++ bs "NoColon" ++ 13 :: 10 :: crlf)))
      [1%nat; 4%nat; 90%nat] = [OError (ErHeaderName 13); OError (ErHeaderName 13); OError (ErHeaderName 13)] /\
  map (fun k => parse_head (cut k 60 (ok_before ++ 40 :: bs "x: y" ++ crlf)))
      [1%nat; 4%nat; 90%nat] = [OError (ErHeaderName 40); OError (ErHeaderName 40); OError (ErHeaderName 40)].
Proof. split; [exact an_ok_ok|]. split; [reflexivity|]. vm_compute. split; reflexivity. Qed.

(* The same in the trailers of a chunked body and among the fields of a part. *)
Theorem C93_trailer_name : forall h q cs fs n b tail segs,
  Forall wf_chunk cs -> Forall wf_header fs ->
  Forall (fun c => tchar c = true) n -> tchar b = false -> b <> 58 -> b < 255 ->
  (n = [] -> b <> 13 /\ b <> 32 /\ b <> 9) ->
  List.concat segs = flat_map render_chunk cs ++ [48] ++ crlf ++ flat_map render_header fs ++ n ++ b :: tail ->
  exists p' log rest, feed h (init_chunked q) segs = (p', log, rest, OError (ErHeaderName b)).
Proof. exact trailer_name_lost. Qed.
Print Assumptions C93_trailer_name.

Example C93_trailer_name_case :
  wf_chunk a_chunk /\ Forall wf_header (m_headers one_part) /\ tchar 32 = false /\
  map (fun k => parse_chunks (cut k 60 (flat_map render_chunk [a_chunk] ++ [48] ++ crlf ++ flat_map render_header (m_headers one_part) ++
                                        bs "Expires" ++ 32 :: bs ": 0" ++ crlf)))
      [1%nat; 4%nat; 90%nat] = [OError (ErHeaderName 32); OError (ErHeaderName 32); OError (ErHeaderName 32)].
Proof.
  split; [exact a_chunk_ok|]. split; [exact (proj1 one_part_ok)|]. split; [reflexivity|]. vm_compute. reflexivity.
Qed.

Theorem C93_part_name : forall h clen q bd ps fs n b tail segs,
  (forall l, h_clen h l = clen (flat l)) ->
  ~ In 13 bd -> N.of_nat (List.length bd) <= 2 ^ 14 ->
  Forall wf_part ps -> answers clen [] ps -> Forall wf_header fs ->
  Forall (fun c => tchar c = true) n -> tchar b = false -> b <> 58 -> b < 255 ->
  (n = [] -> b <> 13 /\ b <> 32 /\ b <> 9) ->
  List.concat segs = bs "--" ++ bd ++ flat_map (render_part bd) ps ++ crlf ++ flat_map render_header fs ++ n ++ b :: tail ->
  exists p' log rest, feed h (set_boundary (init_multipart q) bd) segs = (p', log, rest, OError (ErHeaderName b)).
Proof. exact part_name_lost. Qed.
Print Assumptions C93_part_name.

Example C93_part_name_case :
  Forall wf_part [one_part] /\ answers (fun _ => None) [] [one_part] /\
  map (fun k => parse_body (cut k 60 (bs "--" ++ bs "b" ++ flat_map (render_part (bs "b")) [one_part] ++ crlf ++
                                      flat_map render_header (m_headers one_part) ++ bs "Content-Type" ++ 9 :: bs ": x" ++ crlf)))
      [1%nat; 4%nat; 90%nat] = [OError (ErHeaderName 9); OError (ErHeaderName 9); OError (ErHeaderName 9)].
Proof.
  split; [constructor; [exact one_part_ok|constructor]|]. split; [split; [reflexivity|exact I]|]. vm_compute. reflexivity.
Qed.
