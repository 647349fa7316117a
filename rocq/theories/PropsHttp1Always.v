(* What happens in every case of C22, C24 and C27, each of which is refuted by a
   witness in PropsHttp1Refuted.v.
   Vocabulary: extensions_as, chunked_as, delimited of Http1Accept.v, body_wire,
   render_multipart, seen_* of Http1Wire.v, feed of Http1Spec.v. *)

From Coq Require Import NArith List Bool Arith String.
From Verif Require Import Bytes Http1Model Http1Spec Http1Wire Http1Accept Http1Always.
Import ListNotations.
Local Open Scope N_scope.
Local Open Scope list_scope.

(* C22: no chunk "0" with extensions x ends a body.  What follows it is read as
   a body again, and is needed. *)
Theorem C22_zero_chunk_goes_on : forall h q x e w L tail segs,
  extensions_as x e -> chunked_as w L ->
  List.concat segs = [48] ++ x ++ crlf ++ crlf ++ w ++ tail ->
  exists p' log, feed h (init_chunked q) segs = (p', log, tail, OFinished) /\
    flat log = [FEv EChunkBegin; FEv (EChunkLength 0)] ++ e ++ [FEv EChunkExtsFinished] ++ L.
Proof. exact zero_chunk_goes_on. Qed.
Print Assumptions C22_zero_chunk_goes_on.

Theorem C22_zero_chunk_no_end : forall h q x e segs, extensions_as x e ->
  List.concat segs = [48] ++ x ++ crlf ++ crlf ->
  exists p' log, feed h (init_chunked q) segs = (p', log, [], OEos).
Proof. exact zero_chunk_no_end. Qed.
Print Assumptions C22_zero_chunk_no_end.

Example C22_zero_chunk_case :
  extensions_as (bs ";a") [FByte KChunkExtName 97; FEv EChunkExtFinished] /\
  (let '(_, log, rest, o) := feed yes (init_chunked new) [bs "0;a" ++ crlf ++ crlf; bs "0" ++ crlf ++ crlf ++ bs "x"] in
   (flat log, rest, o)) =
  ([FEv EChunkBegin; FEv (EChunkLength 0); FByte KChunkExtName 97; FEv EChunkExtFinished; FEv EChunkExtsFinished;
    FEv EChunkBegin; FEv (EChunkLength 0); FEv EHeadersFinished; FEv EBodyFinished], bs "x", OFinished).
Proof.
  split; [|vm_compute; reflexivity]. apply exts_last.
  apply (ext_only true [] (bs "a")); try constructor; try discriminate; try reflexivity. constructor.
Qed.

(* C27: every escape that is cut off by the end of the body is dropped, and the
   body accepted. *)
Theorem C27_truncated_escape_dropped : forall h q ps w c tail segs,
  body_wire ps w -> ps <> [] -> c = [37] \/ (exists x, hexdigit x /\ c = [37; x]) ->
  List.concat segs = w ++ c ++ tail ->
  exists p' log,
    feed h (set_length (init_url_encoded q) (N.of_nat (List.length (w ++ c)))) segs = (p', log, tail, OFinished) /\
    flat log = seen_pairs ps.
Proof. exact cut_accepted. Qed.
Print Assumptions C27_truncated_escape_dropped.

Example C27_truncated_escape_case :
  body_wire [([97], Some [98])] (bs "a=b") /\
  (let '(_, log, rest, o) := feed yes (set_length (init_url_encoded new) 5) [bs "a=b%"; bs "4x"] in
   (flat log, rest, o)) = (seen_pairs [([97], Some [98])], bs "x", OFinished).
Proof.
  split; [|vm_compute; reflexivity]. apply body_one, (pair_value [97] [98] (bs "a") (bs "b")).
  - apply enc_literal; [reflexivity| |apply enc_nil]. vm_compute. intuition discriminate.
  - apply enc_literal; [reflexivity| |apply enc_nil]. vm_compute. intuition discriminate.
Qed.

(* C24: the parts of a body are read as they were written exactly if the data of
   each is delimited; in particular this fails for data that ends in CR, CR LF or
   CR LF and a hyphen and has no other CR. *)
Theorem C24_exact_iff : forall h q bd ps tail segs,
  (forall l, h_clen h l = None) -> ~ In 13 bd -> N.of_nat (List.length bd) <= 2 ^ 14 ->
  Forall (fun p => Forall wf_header (fst p)) ps ->
  List.concat segs = render_multipart bd (map plain_part ps) ++ tail ->
  (exists p' log, feed h (set_boundary (init_multipart q) bd) segs = (p', log, tail, OFinished) /\
     flat log = seen_multipart (map plain_part ps)) <->
  Forall (fun p => delimited bd (snd p)) ps.
Proof. exact data_exact_iff. Qed.
Print Assumptions C24_exact_iff.

Theorem C24_hidden : forall bd d x, ~ In 13 d -> In x [[13]; crlf; crlf ++ [45]] -> ~ delimited bd (d ++ x).
Proof. exact hidden. Qed.
Print Assumptions C24_hidden.

(* A second CR frees the delimiter behind it. *)
Example C24_exact_case :
  delimited (bs "b") (bs "x" ++ [13; 13]) /\ ~ delimited (bs "b") (bs "x" ++ [13]) /\
  (let '(_, log, rest, o) := feed yes (set_boundary (init_multipart new) (bs "b"))
     [render_multipart (bs "b") [plain_part ([], bs "x" ++ [13; 13])]] in
   (flat log, rest, o)) = (seen_multipart [plain_part ([], bs "x" ++ [13; 13])], [], OFinished).
Proof.
  split; [|split; [|vm_compute; reflexivity]].
  - apply del_byte; [discriminate|]. apply (del_cr (bs "b") 13 []); [discriminate|apply del_nil].
  - apply (hidden (bs "b") (bs "x") [13]); [|now left]. intros [H|[]]. discriminate H.
Qed.
