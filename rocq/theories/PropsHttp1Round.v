(* Well-formed messages are parsed exactly: C08, C18, C19, C20, C23, C25, C26.
   Vocabulary: Http1Wire.v (messages, rendering, what has to be seen) and feed
   of Http1Spec.v.  In every theorem the handler h is arbitrary (it may pause
   the parser at any callback), the cut of the stream into pieces segs is
   arbitrary, and q is any parser, used before or not. *)

From Coq Require Import NArith List Bool Arith String.
From Verif Require Import Bytes Http1Model Http1Spec Http1Protocol Http1Wire Http1Samples Http1Round Http1Round2
  Http1Required.
Import ListNotations.
Local Open Scope N_scope.

(* C08.  The case that holds: nine bytes of the message are in the first piece
   that has one (refuted otherwise: PropsHttp1Refuted.v). *)
Theorem C08_h_methods_first_nine_bytes : forall h q req tail segs,
  wf_request req -> hd 0 (q_method req) = 72 -> List.concat segs = render_request req ++ tail ->
  (9 <= List.length (strip (hd [] segs)))%nat ->
  exists p' log, feed h (init_head q) segs = (p', log, tail, OFinished) /\ data_of KMethod log = q_method req.
Proof. exact h_method_whole. Qed.
Print Assumptions C08_h_methods_first_nine_bytes.

Example C08_case :
  wf_request sample_request /\ hd 0 (q_method sample_request) = 72 /\
  let s := render_request sample_request in
  let segs := [firstn 11 s; skipn 11 s]%nat in
  (List.length (strip (hd [] segs)) = 9)%nat /\
  let '(_, log, rest, o) := feed yes (init_head new) segs in
  rest = [] /\ o = OFinished /\ data_of KMethod log = bs "HEAD".
Proof. split; [wf_tac|]. vm_compute. repeat split. Qed.

(* C18.  A method that begins with H is read correctly when at least nine of
   its bytes are in the first piece (cf. C08). *)
Theorem C18_request_exact : forall h q req tail segs,
  wf_request req -> List.concat segs = render_request req ++ tail ->
  hd 0 (q_method req) <> 72 \/ (9 <= List.length (strip (hd [] segs)))%nat ->
  exists p' log, feed h (init_head q) segs = (p', log, tail, OFinished) /\ flat log = seen_request req.
Proof. exact request_round. Qed.
Print Assumptions C18_request_exact.

Example C18_case :
  wf_request sample_request /\
  render_request sample_request =
    crlf ++ bs "HEAD /a?b HTTP/1.10" ++ crlf ++ bs "X-Name: a;" ++ [34] ++ bs "q\z" ++ [34] ++ bs " b" ++
    crlf ++ [9] ++ bs "more" ++ crlf ++ bs "Host:h" ++ crlf ++ crlf /\
  seen_request sample_request =
    map (FByte KMethod) (bs "HEAD") ++ map (FByte KUrl) (bs "/a?b") ++
    [FEv (EVersion 1 10); FEv EInitialFinished] ++ map (FByte KHeaderName) (bs "x-name") ++
    map (FByte KHeaderValue) (bs "a;" ++ [34] ++ bs "q\z" ++ [34] ++ bs " bmore") ++
    map (FByte KHeaderName) (bs "host") ++ map (FByte KHeaderValue) (bs "h") ++ [FEv EHeadersFinished].
Proof.
  split; [|split; reflexivity].
  wf_tac.
Qed.

(* C19 *)
Theorem C19_response_exact : forall h q res tail segs,
  wf_response res -> List.concat segs = render_response res ++ tail ->
  exists p' log, feed h (init_head q) segs = (p', log, tail, OFinished) /\ flat log = seen_response res.
Proof. exact response_round. Qed.
Print Assumptions C19_response_exact.

Example C19_case :
  wf_response sample_response /\
  seen_response sample_response =
    [FEv (EVersion 999 1); FEv (EStatusCode 404)] ++ map (FByte KStatus) (bs "Not Found") ++
    [FEv EInitialFinished] ++ map (FByte KHeaderName) (bs "x-name") ++
    map (FByte KHeaderValue) (bs "a;" ++ [34] ++ bs "q\z" ++ [34] ++ bs " bmore") ++ [FEv EHeadersFinished].
Proof.
  split; [|reflexivity].
  wf_tac.
Qed.

(* C20 *)
Theorem C20_chunked_exact : forall h q cs ts tail segs,
  Forall wf_chunk cs -> Forall wf_header ts -> List.concat segs = render_chunked cs ts ++ tail ->
  exists p' log, feed h (init_chunked q) segs = (p', log, tail, OFinished) /\ flat log = seen_chunked cs ts.
Proof. exact chunked_round. Qed.
Print Assumptions C20_chunked_exact.

Example C20_case :
  wf_chunk sample_chunk /\
  seen_chunked [sample_chunk] [sample_header] =
    [FEv EChunkBegin; FEv (EChunkLength 26)] ++ map (FByte KChunkExtName) (bs "key") ++
    map (FByte KChunkExtValue) (bs "v;" ++ [34]) ++ [FEv EChunkExtFinished] ++
    map (FByte KChunkExtName) (bs "flag") ++ [FEv EChunkExtFinished; FEv EChunkExtsFinished] ++
    map (FByte KChunkData) (c_data sample_chunk) ++
    [FEv EChunkBegin; FEv (EChunkLength 0)] ++ seen_headers [sample_header] ++ [FEv EBodyFinished].
Proof.
  split; [|reflexivity].
  wf_tac.
Qed.

(* C23, for a handler that knows no content length; data without CR, or more
   generally data in which every CR is followed by a byte other than CR and LF
   (tame).  Without such a condition: C24. *)
Theorem C23_multipart_exact : forall h q bd ps tail segs,
  (forall l, h_clen h l = None) ->
  ~ In 13 bd -> N.of_nat (List.length bd) <= 2 ^ 14 ->
  Forall (fun p => Forall wf_header (fst p) /\ ~ In 13 (snd p)) ps ->
  List.concat segs = render_multipart bd (map plain_part ps) ++ tail ->
  exists p' log, feed h (set_boundary (init_multipart q) bd) segs = (p', log, tail, OFinished) /\
    flat log = seen_multipart (map plain_part ps).
Proof. exact multipart_round_no_cr. Qed.
Print Assumptions C23_multipart_exact.

Theorem C23_multipart_exact_tame : forall h q bd ps tail segs,
  (forall l, h_clen h l = None) ->
  ~ In 13 bd -> N.of_nat (List.length bd) <= 2 ^ 14 ->
  Forall (fun p => wf_part p /\ m_answer p = None) ps -> List.concat segs = render_multipart bd ps ++ tail ->
  exists p' log, feed h (set_boundary (init_multipart q) bd) segs = (p', log, tail, OFinished) /\
    flat log = seen_multipart ps.
Proof. exact multipart_round_none. Qed.
Print Assumptions C23_multipart_exact_tame.

Example C23_case :
  wf_part sample_part /\
  render_multipart (bs "b") [sample_part; plain_part ([], [])] =
    bs "--b" ++ crlf ++ render_header sample_header ++ crlf ++ bs "x" ++ [13] ++ bs "--bx" ++ [10] ++
    crlf ++ bs "--b" ++ crlf ++ crlf ++ crlf ++ bs "--b--" /\
  seen_multipart [sample_part; plain_part ([], [])] =
    [FEv EMultipartBegin] ++ seen_headers [sample_header] ++ [FEv EContentLength] ++
    map (FByte KMultipartData) (bs "x" ++ [13] ++ bs "--bx" ++ [10]) ++
    [FEv EMultipartBegin; FEv EHeadersFinished; FEv EContentLength; FEv EBodyFinished].
Proof.
  split; [|split; reflexivity].
  wf_tac.
Qed.

(* C25.  The handler's content_length answers, for every part with a declared
   length, the length of its data; the answer may depend on everything the
   handler has seen, but not on how the data was cut into fragments. *)
Theorem C25_multipart_length_exact : forall h clen q bd ps tail segs,
  (forall l, h_clen h l = clen (flat l)) ->
  ~ In 13 bd -> N.of_nat (List.length bd) <= 2 ^ 14 ->
  Forall wf_part ps -> answers clen [] ps -> List.concat segs = render_multipart bd ps ++ tail ->
  exists p' log, feed h (set_boundary (init_multipart q) bd) segs = (p', log, tail, OFinished) /\
    flat log = seen_multipart ps.
Proof. exact multipart_round. Qed.
Print Assumptions C25_multipart_length_exact.

(* The delimiter is then required: the stream agrees with CR LF "--" boundary
   up to x and continues with a different byte b. *)
Theorem C25_boundary_required : forall h clen q bd ps p x z b r segs,
  (forall l, h_clen h l = clen (flat l)) ->
  ~ In 13 bd -> N.of_nat (List.length bd) <= 2 ^ 14 ->
  Forall wf_part ps -> wf_part p -> m_answer p <> None -> answers clen [] (ps ++ [p]) ->
  crlf ++ bs "--" ++ bd = x ++ z -> z <> [] -> Some b <> nth_error z 0 ->
  List.concat segs = bs "--" ++ bd ++ flat_map (render_part bd) ps ++
                     crlf ++ render_headers (m_headers p) ++ m_data p ++ x ++ b :: r ->
  exists p' log b',
    feed h (set_boundary (init_multipart q) bd) segs = (p', log, [], OError (ErMultipartBoundary b')) /\
    flat log = flat_map seen_part ps ++ seen_part p.
Proof. exact multipart_required_exact. Qed.
Print Assumptions C25_boundary_required.

Example C25_case :
  wf_part sample_length_part /\ answers (fun _ => Some 7) [] [sample_length_part] /\
  (let '(_, log, rest, o) :=
     feed knows_seven (set_boundary (init_multipart new) (bs "b"))
          (map (fun b => [b]) (render_multipart (bs "b") [sample_length_part] ++ bs "tail")) in
   flat log = seen_multipart [sample_length_part] /\ rest = bs "tail" /\ o = OFinished) /\
  (let '(_, log, rest, o) :=
     feed knows_seven (set_boundary (init_multipart new) (bs "b"))
          [bs "--b" ++ crlf ++ crlf ++ bs "1234567" ++ crlf ++ bs "-x"] in
   o = OError (ErMultipartBoundary 120)).
Proof.
  split; [|split; [|split]]; try (vm_compute; repeat split; reflexivity).
  wf_tac.
Qed.

(* C26.  body_wire ps w: the pairs ps may be written as w. *)
Theorem C26_url_encoded_exact : forall h q ps w tail segs,
  body_wire ps w -> segs <> [] -> List.concat segs = w ++ tail ->
  exists p' log,
    feed h (set_length (init_url_encoded q) (N.of_nat (List.length w))) segs = (p', log, tail, OFinished) /\
    flat log = seen_pairs ps.
Proof. exact url_round. Qed.
Print Assumptions C26_url_encoded_exact.

(* Every list of pairs of byte strings can be written. *)
Theorem C26_url_encoded_any_pairs : forall ps,
  Forall (fun '(n, v) => Forall (fun b : byte => b < 256) n /\
                         match v with None => n <> [] | Some v => Forall (fun b : byte => b < 256) v end) ps ->
  exists w, body_wire ps w.
Proof. exact body_wire_all. Qed.
Print Assumptions C26_url_encoded_any_pairs.

Example C26_case :
  body_wire [(bs "a ", Some (bs "x="  ++ [255])); (bs "flag", None)] (bs "a+=x%3D%fF&flag") /\
  seen_pairs [(bs "a ", Some (bs "x=" ++ [255])); (bs "flag", None)] =
    [FEv EUrlBegin] ++ map (FByte KUrlName) (bs "a ") ++ map (FByte KUrlValue) (bs "x=" ++ [255]) ++
    [FEv EUrlBegin] ++ map (FByte KUrlName) (bs "flag") ++ [FEv EBodyFinished].
Proof.
  split; [|reflexivity].
  apply (body_cons _ _ (bs "a+=x%3D%fF") 38 (bs "flag")); [|now left|discriminate|apply body_one].
  - apply (pair_value (bs "a ") (bs "x=" ++ [255]) (bs "a+") (bs "x%3D%fF")).
    + apply (enc_literal 97 _ (bs "+")); [reflexivity|cbv; intuition discriminate|]. apply enc_plus, enc_nil.
    + apply (enc_literal 120 _ (bs "%3D%fF")); [reflexivity|cbv; intuition discriminate|].
      apply (enc_escape 51 68 _ (bs "%fF")); [cbv; intuition discriminate..|].
      apply (enc_escape 102 70 _ []); [cbv; intuition discriminate..|]. apply enc_nil.
  - apply pair_name; [discriminate|].
    repeat (apply enc_literal; [reflexivity|cbv; intuition discriminate|]). apply enc_nil.
Qed.
