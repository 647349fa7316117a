(* Lines end in CR LF only: C94.  Vocabulary: taken of ValueSpec.v, messages of
   Http1Wire.v. *)

From Coq Require Import NArith List Bool Arith String.
From Verif Require Import Bytes Http1Model Http1Spec Http1Protocol Http1Wire FormSamples
  ValueSpec ValueSamples ExtSamples FieldNameSamples LineFacts LineChunk LineFirst LineLast.
Import ListNotations.
Local Open Scope N_scope.
Local Open Scope list_scope.

(* A CR at the end of a field, after any fields of a request: only LF may follow. *)
Theorem C94_request_field : forall h q req before n pad v b tail segs,
  wf_request req -> render_request req = before ++ crlf ->
  hd 0 (q_method req) <> 72 \/ (9 <= List.length (strip (hd [] segs)))%nat ->
  n <> [] -> Forall (fun c => tchar c = true) n -> padding pad -> taken v -> b <> 10 ->
  List.concat segs = before ++ n ++ 58 :: pad ++ v ++ 13 :: b :: tail ->
  exists p' log rest, feed h (init_head q) segs = (p', log, rest, OError (ErCrlfSequence b)).
Proof. exact request_line_end. Qed.
Print Assumptions C94_request_field.

Example C94_request_field_case :
  wf_request a_get /\ render_request a_get = get_before ++ crlf /\ taken (bs "v") /\
  map (fun k => parse_head (cut k 60 (get_before ++ bs "X" ++ 58 :: [32] ++ bs "v" ++ 13 :: 89 :: bs ": z" ++ crlf ++ crlf)))
      [1%nat; 4%nat; 90%nat] = [OError (ErCrlfSequence 89); OError (ErCrlfSequence 89); OError (ErCrlfSequence 89)].
Proof. split; [exact a_get_ok|]. split; [reflexivity|]. split; [split; reflexivity|]. vm_compute. reflexivity. Qed.

Theorem C94_response_field : forall h q res before n pad v b tail segs,
  wf_response res -> render_response res = before ++ crlf ->
  n <> [] -> Forall (fun c => tchar c = true) n -> padding pad -> taken v -> b <> 10 ->
  List.concat segs = before ++ n ++ 58 :: pad ++ v ++ 13 :: b :: tail ->
  exists p' log rest, feed h (init_head q) segs = (p', log, rest, OError (ErCrlfSequence b)).
Proof. exact response_line_end. Qed.
Print Assumptions C94_response_field.

Example C94_response_field_case :
  wf_response an_ok /\ render_response an_ok = ok_before ++ crlf /\ taken (bs "v") /\
  map (fun k => parse_head (cut k 60 (ok_before ++ bs "X" ++ 58 :: [32] ++ bs "v" ++ 13 :: 13 :: [10; 13; 10])))
      [1%nat; 4%nat; 90%nat] = [OError (ErCrlfSequence 13); OError (ErCrlfSequence 13); OError (ErCrlfSequence 13)].
Proof. split; [exact an_ok_ok|]. split; [reflexivity|]. split; [split; reflexivity|]. vm_compute. reflexivity. Qed.

(* The CR of the empty line. *)
Theorem C94_request_empty_line : forall h q req before b tail segs,
  wf_request req -> render_request req = before ++ crlf ->
  hd 0 (q_method req) <> 72 \/ (9 <= List.length (strip (hd [] segs)))%nat -> b <> 10 ->
  List.concat segs = before ++ 13 :: b :: tail ->
  exists p' log rest, feed h (init_head q) segs = (p', log, rest, OError (ErCrlfSequence b)).
Proof. exact request_last_line. Qed.
Print Assumptions C94_request_empty_line.

Theorem C94_response_empty_line : forall h q res before b tail segs,
  wf_response res -> render_response res = before ++ crlf -> b <> 10 ->
  List.concat segs = before ++ 13 :: b :: tail ->
  exists p' log rest, feed h (init_head q) segs = (p', log, rest, OError (ErCrlfSequence b)).
Proof. exact response_last_line. Qed.
Print Assumptions C94_response_empty_line.

Example C94_empty_line_case :
  wf_request a_get /\ render_request a_get = get_before ++ crlf /\
  wf_response an_ok /\ render_response an_ok = ok_before ++ crlf /\
  map (fun s => map (fun k => parse_head (cut k 60 (s ++ 13 :: 120 :: [10]))) [1%nat; 4%nat; 90%nat]) [get_before; ok_before] =
    [[OError (ErCrlfSequence 120); OError (ErCrlfSequence 120); OError (ErCrlfSequence 120)];
     [OError (ErCrlfSequence 120); OError (ErCrlfSequence 120); OError (ErCrlfSequence 120)]].
Proof.
  split; [exact a_get_ok|]. split; [reflexivity|]. split; [exact an_ok_ok|]. split; [reflexivity|]. vm_compute. reflexivity.
Qed.

(* The CR of the first line. *)
Theorem C94_request_first_line : forall h q req b tail segs,
  wf_request req ->
  hd 0 (q_method req) <> 72 \/ (9 <= List.length (strip (hd [] segs)))%nat -> b <> 10 ->
  List.concat segs = q_blank req ++ q_method req ++ [32] ++ q_url req ++ [32] ++ render_version (q_version req) ++ 13 :: b :: tail ->
  exists p' log rest, feed h (init_head q) segs = (p', log, rest, OError (ErCrlfSequence b)).
Proof. exact request_first_line. Qed.
Print Assumptions C94_request_first_line.

Theorem C94_response_first_line : forall h q res b tail segs,
  wf_response res -> b <> 10 ->
  List.concat segs = r_blank res ++ render_version (r_version res) ++ [32] ++ r_code res ++ [32] ++ r_reason res ++ 13 :: b :: tail ->
  exists p' log rest, feed h (init_head q) segs = (p', log, rest, OError (ErCrlfSequence b)).
Proof. exact response_first_line. Qed.
Print Assumptions C94_response_first_line.

Example C94_first_line_case :
  wf_request a_get /\ wf_response an_ok /\
  map (fun s => map (fun k => parse_head (cut k 60 (s ++ 13 :: 13 :: [10; 13; 10]))) [1%nat; 4%nat; 90%nat])
      [bs "GET /x HTTP/1.1"; bs "HTTP/1.1 200 OK"] =
    [[OError (ErCrlfSequence 13); OError (ErCrlfSequence 13); OError (ErCrlfSequence 13)];
     [OError (ErCrlfSequence 13); OError (ErCrlfSequence 13); OError (ErCrlfSequence 13)]].
Proof. split; [exact a_get_ok|]. split; [exact an_ok_ok|]. vm_compute. reflexivity. Qed.

(* LF without CR ends neither a field nor the head. *)
Theorem C94_request_bare_lf : forall h q req before n pad v tail segs,
  wf_request req -> render_request req = before ++ crlf ->
  hd 0 (q_method req) <> 72 \/ (9 <= List.length (strip (hd [] segs)))%nat ->
  n <> [] -> Forall (fun c => tchar c = true) n -> padding pad -> taken v ->
  forall e,
  List.concat segs = before ++ n ++ 58 :: pad ++ v ++ 10 :: tail /\ e = ErHeaderValue 10 \/
  List.concat segs = before ++ 10 :: tail /\ e = ErHeaderName 10 ->
  exists p' log rest, feed h (init_head q) segs = (p', log, rest, OError e).
Proof. exact request_bare_lf. Qed.
Print Assumptions C94_request_bare_lf.

Theorem C94_response_bare_lf : forall h q res before n pad v tail segs,
  wf_response res -> render_response res = before ++ crlf ->
  n <> [] -> Forall (fun c => tchar c = true) n -> padding pad -> taken v ->
  forall e,
  List.concat segs = before ++ n ++ 58 :: pad ++ v ++ 10 :: tail /\ e = ErHeaderValue 10 \/
  List.concat segs = before ++ 10 :: tail /\ e = ErHeaderName 10 ->
  exists p' log rest, feed h (init_head q) segs = (p', log, rest, OError e).
Proof. exact response_bare_lf. Qed.
Print Assumptions C94_response_bare_lf.

Example C94_bare_lf_case :
  wf_request a_get /\ wf_response an_ok /\ taken (bs "v") /\
  map (fun s => (parse_head (cut 3 60 (s ++ bs "X" ++ 58 :: [32] ++ bs "v" ++ 10 :: crlf)), parse_head (cut 3 60 (s ++ 10 :: crlf))))
      [get_before; ok_before] =
    [(OError (ErHeaderValue 10), OError (ErHeaderName 10)); (OError (ErHeaderValue 10), OError (ErHeaderName 10))].
Proof. split; [exact a_get_ok|]. split; [exact an_ok_ok|]. split; [split; reflexivity|]. vm_compute. reflexivity. Qed.

(* Chunks: the CR of the line with the size, and the CR LF behind the data. *)
Theorem C94_chunk_line : forall h q cs s xs d b tail segs,
  Forall wf_chunk cs -> wf_chunk (Chunk s xs d) -> b <> 10 ->
  List.concat segs = flat_map render_chunk cs ++ s ++ flat_map render_ext xs ++ 13 :: b :: tail ->
  exists p' log rest, feed h (init_chunked q) segs = (p', log, rest, OError (ErCrlfSequence b)).
Proof. exact chunk_line_end. Qed.
Print Assumptions C94_chunk_line.

Theorem C94_chunk_data : forall h q cs s xs d x z b tail segs,
  Forall wf_chunk cs -> wf_chunk (Chunk s xs d) -> crlf = x ++ z -> z <> [] -> Some b <> nth_error z 0 ->
  List.concat segs = flat_map render_chunk cs ++ s ++ flat_map render_ext xs ++ crlf ++ d ++ x ++ b :: tail ->
  exists p' log rest, feed h (init_chunked q) segs = (p', log, rest, OError (ErCrlfSequence b)).
Proof. exact chunk_data_end. Qed.
Print Assumptions C94_chunk_data.

Example C94_chunk_case :
  wf_chunk a_chunk /\ crlf = [13] ++ [10] /\
  map (fun y => map (fun k => parse_chunks (cut k 60 (flat_map render_chunk [a_chunk] ++ bs "3" ++ flat_map render_ext [an_ext] ++ y)))
                    [1%nat; 4%nat; 90%nat])
      [13 :: 48 :: bs "one"; crlf ++ bs "one" ++ [] ++ 52 :: crlf; crlf ++ bs "one" ++ [13] ++ 13 :: [10]] =
    [[OError (ErCrlfSequence 48); OError (ErCrlfSequence 48); OError (ErCrlfSequence 48)];
     [OError (ErCrlfSequence 52); OError (ErCrlfSequence 52); OError (ErCrlfSequence 52)];
     [OError (ErCrlfSequence 13); OError (ErCrlfSequence 13); OError (ErCrlfSequence 13)]].
Proof. split; [exact a_chunk_ok|]. split; [reflexivity|]. vm_compute. reflexivity. Qed.

(* The line of the last chunk, and the empty line behind the trailers. *)
Theorem C94_last_chunk_line : forall h q cs b tail segs,
  Forall wf_chunk cs -> b <> 10 ->
  List.concat segs = flat_map render_chunk cs ++ 48 :: 13 :: b :: tail ->
  exists p' log rest, feed h (init_chunked q) segs = (p', log, rest, OError (ErCrlfSequence b)).
Proof. exact last_chunk_line. Qed.
Print Assumptions C94_last_chunk_line.

Theorem C94_trailers_empty_line : forall h q cs ts b tail segs,
  Forall wf_chunk cs -> Forall wf_header ts -> b <> 10 ->
  List.concat segs = flat_map render_chunk cs ++ [48] ++ crlf ++ flat_map render_header ts ++ 13 :: b :: tail ->
  exists p' log rest, feed h (init_chunked q) segs = (p', log, rest, OError (ErCrlfSequence b)).
Proof. exact trailers_line. Qed.
Print Assumptions C94_trailers_empty_line.

Example C94_last_chunk_case :
  wf_chunk a_chunk /\ Forall wf_header (q_headers a_get) /\
  map (fun y => map (fun k => parse_chunks (cut k 60 (flat_map render_chunk [a_chunk] ++ y))) [1%nat; 4%nat; 90%nat])
      [48 :: 13 :: 13 :: [10; 13; 10]; [48] ++ crlf ++ flat_map render_header (q_headers a_get) ++ 13 :: 88 :: [10]] =
    [[OError (ErCrlfSequence 13); OError (ErCrlfSequence 13); OError (ErCrlfSequence 13)];
     [OError (ErCrlfSequence 88); OError (ErCrlfSequence 88); OError (ErCrlfSequence 88)]].
Proof. split; [exact a_chunk_ok|]. split; [apply a_get_ok|]. vm_compute. reflexivity. Qed.
