(* Independence of segmentation and pausing: C07, C09-C11 and the part of C31
   that holds.  Vocabulary: feed, alike, hok, strip of Http1Spec.v. *)

From Coq Require Import NArith List Bool Arith String.
From Verif Require Import Bytes ByteStream Http1Model Http1Spec Http1Api.
Import ListNotations.
Local Open Scope N_scope.

(* C07: heads.  The message does not begin with an H-method (after leading
   whitespace), or at least 9 bytes of it are in the first piece. *)
Theorem C07_head_segmentation : forall q h1 h2 segs1 segs2,
  segs1 <> [] -> segs2 <> [] -> List.concat segs1 = List.concat segs2 ->
  hok (strip (List.concat segs1)) = true \/
  (9 <= List.length (strip (hd [] segs1)) /\ 9 <= List.length (strip (hd [] segs2)))%nat ->
  alike eq (feed h1 (init_head q) segs1) (feed h2 (init_head q) segs2).
Proof. exact head_segmentation. Qed.
Print Assumptions C07_head_segmentation.

Example C07_case :
  let s := crlf ++ bs "POST /a HTTP/1.1" ++ crlf ++ bs "Host: x" ++ crlf ++ crlf ++ bs "body" in
  hok (strip s) = true /\
  (let '(_, l1, rest1, o1) := feed yes (init_head new) [s] in
   o1 = OFinished /\ rest1 = bs "body" /\ List.length l1 = 8%nat) /\
  (let '(_, l2, rest2, o2) := feed never (init_head new) (map (fun b => [b]) s) in
   o2 = OFinished /\ rest2 = bs "body" /\ List.length l2 = 14%nat) /\
  (* the other form of the condition *)
  hok (bs "HEAD / HTTP/1.1") = false /\
  (9 <= List.length (strip (bs "HEAD / HT")))%nat.
Proof. vm_compute. repeat split; repeat constructor. Qed.

(* C09: chunked bodies. *)
Theorem C09_chunked_segmentation : forall q h1 h2 segs1 segs2,
  segs1 <> [] -> segs2 <> [] -> List.concat segs1 = List.concat segs2 ->
  alike eq (feed h1 (init_chunked q) segs1) (feed h2 (init_chunked q) segs2).
Proof. exact chunked_segmentation. Qed.
Print Assumptions C09_chunked_segmentation.

Example C09_case :
  let s := bs "3;A=b" ++ crlf ++ bs "xyz" ++ crlf ++ bs "0" ++ crlf ++ bs "T: v" ++ crlf ++ crlf in
  (let '(_, l1, rest1, o1) := feed yes (init_chunked new) [s] in o1 = OFinished /\ List.length l1 = 13%nat) /\
  (let '(_, l2, rest2, o2) := feed never (init_chunked new) (map (fun b => [b]) s) in
   o2 = OFinished /\ List.length l2 = 15%nat).
Proof. vm_compute. repeat split; reflexivity. Qed.

(* C10: multipart bodies; content_length answers depend on what was reported,
   not on how it was cut into fragments. *)
Theorem C10_multipart_segmentation : forall q bd clen h1 h2 segs1 segs2,
  ~ In 13 bd -> N.of_nat (List.length bd) <= 2 ^ 14 ->
  (forall l, h_clen h1 l = clen (flat l)) -> (forall l, h_clen h2 l = clen (flat l)) ->
  segs1 <> [] -> segs2 <> [] -> List.concat segs1 = List.concat segs2 ->
  alike same_kind (feed h1 (set_boundary (init_multipart q) bd) segs1)
                  (feed h2 (set_boundary (init_multipart q) bd) segs2).
Proof. exact multipart_segmentation. Qed.
Print Assumptions C10_multipart_segmentation.

Example C10_case :
  let s := bs "--XY" ++ crlf ++ bs "a: b" ++ crlf ++ crlf ++ bs "data" ++ crlf ++ bs "--XY--" in
  let p := set_boundary (init_multipart new) (bs "XY") in
  (let '(_, l1, rest1, o1) := feed yes p [s] in o1 = OFinished /\ data_of KMultipartData l1 = bs "data") /\
  (let '(_, l2, rest2, o2) := feed never p (map (fun b => [b]) s) in
   o2 = OFinished /\ data_of KMultipartData l2 = bs "data").
Proof. vm_compute. repeat split; reflexivity. Qed.

(* C11: URL-encoded bodies. *)
Theorem C11_url_encoded_segmentation : forall q n h1 h2 segs1 segs2,
  segs1 <> [] -> segs2 <> [] -> List.concat segs1 = List.concat segs2 ->
  alike eq (feed h1 (set_length (init_url_encoded q) n) segs1)
           (feed h2 (set_length (init_url_encoded q) n) segs2).
Proof. exact url_segmentation. Qed.
Print Assumptions C11_url_encoded_segmentation.

Example C11_case :
  let s := bs "a=%41b&c+d=e" ++ bs "XX" in
  let p := set_length (init_url_encoded new) 12 in
  (let '(_, l1, rest1, o1) := feed yes p [s] in
   o1 = OFinished /\ rest1 = bs "XX" /\ data_of KUrlValue l1 = bs "Abe") /\
  (let '(_, l2, rest2, o2) := feed never p (map (fun b => [b]) s) in
   o2 = OFinished /\ rest2 = bs "XX" /\ data_of KUrlValue l2 = bs "Abe").
Proof. vm_compute. repeat split; reflexivity. Qed.

(* C31, across segmentations and handlers: a new parser behaves like one after
   init_head if the first piece is not empty and does not start with
   whitespace. *)
Theorem C31_new_like_init_head_cuts : forall q h1 h2 (segs1 segs2 : list (list byte)) (b : byte) s,
  segs2 <> [] -> List.concat segs1 = List.concat segs2 ->
  hd [] segs1 <> [] ->
  List.concat segs1 = b :: s -> ~ In b [13; 10; 9; 32] ->
  hok (List.concat segs1) = true \/
  (9 <= List.length (hd [] segs1) /\ 9 <= List.length (hd [] segs2))%nat ->
  alike eq (feed h1 new segs1) (feed h2 (init_head q) segs2).
Proof. exact new_like_init. Qed.
Print Assumptions C31_new_like_init_head_cuts.

Example C31_cuts_case :
  hok (bs "POST / HTTP/1.1" ++ crlf ++ crlf) = true /\
  snd (feed never new [bs "PO"; bs "ST / HTTP/1.1" ++ crlf ++ crlf]) = OFinished.
Proof. vm_compute. split; reflexivity. Qed.
