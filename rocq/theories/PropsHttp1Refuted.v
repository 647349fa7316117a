(* Properties the HTTP/1 parser does not have, with witnesses: C06, C08, C10, C14,
   C22, C24, C27, C31. *)

From Coq Require Import NArith List Bool Arith String.
From Verif Require Import Bytes ByteStream Http1Model Http1Spec Http1Refute.
Import ListNotations.
Local Open Scope N_scope.

(* C06: a finished URL-encoded body has not advanced byte_count() by its
   length. *)
Theorem C06_byte_count_url_encoded_refuted : exists body : list byte,
  let '(p', _, r) :=
    resume yes (set_length (init_url_encoded new) (N.of_nat (List.length body))) [] body in
  r = ROk (SFinished (List.length body)) /\ byte_count p' <> N.of_nat (List.length body).
Proof. exact double_count. Qed.
Print Assumptions C06_byte_count_url_encoded_refuted.

(* C08: a HEAD request cut after three bytes is reported with method EAD. *)
Theorem C08_h_methods_segmentation_refuted : exists s1 s2 : list byte,
  s1 ++ s2 = bs "HEAD / HTTP/1.1" ++ crlf ++ crlf /\
  (let '(_, l1, rest, o) := feed yes (init_head new) [s1 ++ s2] in
   rest = [] /\ o = OFinished /\ data_of KMethod l1 = bs "HEAD") /\
  (let '(_, l2, rest, o) := feed yes (init_head new) [s1; s2] in
   rest = [] /\ o = OFinished /\ data_of KMethod l2 = bs "EAD").
Proof. exact head_lost. Qed.
Print Assumptions C08_h_methods_segmentation_refuted.

(* C14: panics in a header name, a header value and a chunk extension, an
   out-of-bounds read by a new parser fed nothing, and a panic of a multipart
   parser without boundary. *)
Theorem C14_never_panics_refuted :
  (exists s, snd (feed yes (init_head new) [bs "GET / HTTP/1.1" ++ crlf ++ s]) = OFault FIndexPanic) /\
  (exists s, snd (feed yes (init_head new) [bs "GET / HTTP/1.1" ++ crlf ++ bs "a: b" ++ s]) = OFault FIndexPanic) /\
  (exists s, snd (feed yes (init_chunked new) [bs "1;a=" ++ s]) = OFault FIndexPanic) /\
  snd (feed yes new [[]]) = OFault FOutOfBounds /\
  (exists s, snd (feed yes (init_multipart new) [s]) = OFault FUnwrapPanic).
Proof. exact panics. Qed.
Print Assumptions C14_never_panics_refuted.

(* C22: a zero-size chunk with an extension (one that is accepted with another
   size) does not end the body: the parser expects a further chunk. *)
Theorem C22_zero_chunk_refuted : exists ext : list byte,
  (let '(p', _, rest, o) := feed yes (init_chunked new) [bs "0" ++ ext ++ crlf ++ crlf] in
   rest = [] /\ o = OEos /\ state p' = StChunkLength1) /\
  snd (feed yes (init_chunked new) [bs "0" ++ crlf ++ crlf]) = OFinished /\
  snd (feed yes (init_chunked new)
         [bs "1" ++ ext ++ crlf ++ bs "x" ++ crlf ++ bs "0" ++ crlf ++ crlf]) = OFinished.
Proof. exact zero_chunk_ext. Qed.
Print Assumptions C22_zero_chunk_refuted.

(* C24: data that does not contain the delimiter, but hides the one following
   it. *)
Theorem C24_multipart_any_data_refuted : exists bd data : list byte,
  (forall x y, data <> x ++ crlf ++ bs "--" ++ bd ++ y) /\
  (let '(_, log', rest, o) :=
     feed yes (set_boundary (init_multipart new) bd)
       [bs "--" ++ bd ++ crlf ++ crlf ++ data ++ crlf ++ bs "--" ++ bd ++ bs "--"] in
   rest = [] /\ o = OEos /\ data_of KMultipartData log' <> data) /\
  snd (feed yes (set_boundary (init_multipart new) bd)
    [bs "--" ++ bd ++ crlf ++ crlf ++ removelast data ++ crlf ++ bs "--" ++ bd ++ bs "--"]) = OFinished.
Proof. exact multipart_cr_data. Qed.
Print Assumptions C24_multipart_any_data_refuted.

(* C27: bodies ending inside an escape are accepted. *)
Theorem C27_truncated_escape_refuted :
  snd (feed yes (set_length (init_url_encoded new) 3) [bs "a=%"]) = OFinished /\
  snd (feed yes (set_length (init_url_encoded new) 4) [bs "a=%4"]) = OFinished.
Proof. exact truncated_escape. Qed.
Print Assumptions C27_truncated_escape_refuted.

(* C31: a new parser rejects leading whitespace, one after init_head skips it. *)
Theorem C31_new_like_init_head_refuted : exists s b,
  snd (feed yes new [s]) = OError (ErMethod b) /\ snd (feed yes (init_head new) [s]) = OFinished.
Proof. exact new_whitespace. Qed.
Print Assumptions C31_new_like_init_head_refuted.

(* C10: a boundary containing a carriage return, and one longer than 2^14
   bytes, are recognised or not depending on the cut. *)
Theorem C10_boundary_with_cr_refuted : exists bd s1 s2,
  In 13 bd /\
  (let '(_, log, rest, o) := feed yes (set_boundary (init_multipart new) bd) [s1 ++ s2] in
   rest = [] /\ o = OFinished /\ data_of KMultipartData log = crlf ++ bs "--a") /\
  (let '(_, log, rest, o) := feed yes (set_boundary (init_multipart new) bd) [s1; s2] in
   rest = [] /\ o = OEos /\ data_of KMultipartData log = crlf ++ bs "--a" ++ [13] ++ s2).
Proof. exact boundary_cr_cut. Qed.
Print Assumptions C10_boundary_with_cr_refuted.

Theorem C10_long_boundary_refuted : exists bd s1 s2,
  ~ In 13 bd /\ N.of_nat (List.length bd) = 2 ^ 14 + 1 /\ s1 ++ s2 = bs "--" ++ bd ++ bs "--" /\
  snd (feed yes (set_boundary (init_multipart new) bd) [s1 ++ s2]) = OFinished /\
  snd (feed yes (set_boundary (init_multipart new) bd) [s1; s2]) = OError (ErMultipartBoundary 98).
Proof. exact boundary_long_cut. Qed.
Print Assumptions C10_long_boundary_refuted.
