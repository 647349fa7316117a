(* A stream can be read in one way only: C81.  Vocabulary: the grammars of
   Http1Accept.v and feed of Http1Spec.v. *)

From Coq Require Import NArith List Bool Arith String.
From Verif Require Import Bytes Http1Model Http1Spec Http1Protocol Http1Wire Http1Accept
  Http1Parse Http1Parse2 Http1Parse3 Http1Parse4 Http1Unique.
Import ListNotations.
Local Open Scope N_scope.

(* Of two accepted messages at the beginning of one stream, none is longer than
   the other, and a handler is told the same of both. *)
Theorem C81_head : forall w1 L1 r1 w2 L2 r2,
  head_as w1 L1 -> head_as w2 L2 -> w1 ++ r1 = w2 ++ r2 -> w1 = w2 /\ L1 = L2.
Proof. exact head_unique. Qed.
Print Assumptions C81_head.

(* A head with a folded line, followed by something that looks like one more. *)
Example C81_head_case : exists w,
  bs "GET / HTTP/1.1" ++ crlf ++ bs "a: b" ++ crlf ++ bs " c" ++ crlf ++ crlf ++ bs "d: e" ++ crlf ++ crlf =
    w ++ bs "d: e" ++ crlf ++ crlf /\
  head_as w (map (FByte KMethod) (bs "GET") ++ map (FByte KUrl) (bs "/") ++
             [FEv (EVersion 1 1); FEv EInitialFinished; FByte KHeaderName 97] ++
             map (FByte KHeaderValue) (bs "bc") ++ [FEv EHeadersFinished]).
Proof.
  destruct (proj1 (head_exact yes new
    [bs "GET / HTTP/1.1" ++ crlf ++ bs "a: b" ++ crlf ++ bs " c" ++ crlf ++ crlf ++ bs "d: e" ++ crlf ++ crlf]
    (bs "d: e" ++ crlf ++ crlf)
    (map (FByte KMethod) (bs "GET") ++ map (FByte KUrl) (bs "/") ++
     [FEv (EVersion 1 1); FEv EInitialFinished; FByte KHeaderName 97] ++
     map (FByte KHeaderValue) (bs "bc") ++ [FEv EHeadersFinished]) (or_introl eq_refl))) as (w & E & H).
  - do 2 eexists. split; vm_compute; reflexivity.
  - exists w. split; [rewrite <- E; reflexivity|exact H].
Qed.

Theorem C81_chunked : forall w1 L1 r1 w2 L2 r2,
  chunked_as w1 L1 -> chunked_as w2 L2 -> w1 ++ r1 = w2 ++ r2 -> w1 = w2 /\ L1 = L2.
Proof. exact chunked_unique. Qed.
Print Assumptions C81_chunked.

(* The data looks like the end of the body. *)
Example C81_chunked_case : exists w,
  bs "5" ++ crlf ++ bs "0" ++ crlf ++ crlf ++ crlf ++ bs "0" ++ crlf ++ crlf ++ bs "0" = w ++ bs "0" /\
  chunked_as w ([FEv EChunkBegin; FEv (EChunkLength 5); FEv EChunkExtsFinished] ++
                map (FByte KChunkData) (bs "0" ++ crlf ++ crlf) ++
                [FEv EChunkBegin; FEv (EChunkLength 0); FEv EHeadersFinished; FEv EBodyFinished]).
Proof.
  destruct (proj1 (chunked_exact yes new
    [bs "5" ++ crlf ++ bs "0" ++ crlf ++ crlf ++ crlf ++ bs "0" ++ crlf ++ crlf ++ bs "0"] (bs "0")
    ([FEv EChunkBegin; FEv (EChunkLength 5); FEv EChunkExtsFinished] ++
     map (FByte KChunkData) (bs "0" ++ crlf ++ crlf) ++
     [FEv EChunkBegin; FEv (EChunkLength 0); FEv EHeadersFinished; FEv EBodyFinished]))) as (w & E & H).
  - do 2 eexists. split; vm_compute; reflexivity.
  - exists w. split; [rewrite <- E; reflexivity|exact H].
Qed.

Theorem C81_multipart : forall bd clen w1 L1 r1 w2 L2 r2, ~ In 13 bd ->
  multipart_as bd clen w1 L1 -> multipart_as bd clen w2 L2 -> w1 ++ r1 = w2 ++ r2 -> w1 = w2 /\ L1 = L2.
Proof. exact multipart_unique. Qed.
Print Assumptions C81_multipart.

(* Data with a part of the delimiter. *)
Example C81_multipart_case : ~ In 13 (bs "ab") /\ exists w,
  bs "--ab" ++ crlf ++ crlf ++ bs "x" ++ crlf ++ bs "--a" ++ crlf ++ bs "--ab----ab--" = w ++ bs "--ab--" /\
  multipart_as (bs "ab") (fun _ => None) w
    ([FEv EMultipartBegin; FEv EHeadersFinished; FEv EContentLength] ++
     map (FByte KMultipartData) (bs "x" ++ crlf ++ bs "--a") ++ [FEv EBodyFinished]).
Proof.
  assert (C : ~ In 13 (bs "ab")) by (cbn; intros [X|[X|[]]]; discriminate X).
  split; [exact C|].
  destruct (proj1 (multipart_exact yes (fun _ => None) new (bs "ab")
    [bs "--ab" ++ crlf ++ crlf ++ bs "x" ++ crlf ++ bs "--a" ++ crlf ++ bs "--ab----ab--"] (bs "--ab--")
    ([FEv EMultipartBegin; FEv EHeadersFinished; FEv EContentLength] ++
     map (FByte KMultipartData) (bs "x" ++ crlf ++ bs "--a") ++ [FEv EBodyFinished])
    (fun _ => eq_refl) C ltac:(vm_compute; discriminate))) as (w & E & H).
  - do 2 eexists. split; vm_compute; reflexivity.
  - exists w. split; [rewrite <- E; reflexivity|exact H].
Qed.

(* The length of a URL-encoded body is given. *)
Theorem C81_url_encoded : forall w e1 e2, pairs_as w e1 -> pairs_as w e2 -> e1 = e2.
Proof. exact pairs_unique. Qed.
Print Assumptions C81_url_encoded.

(* The last escape is cut off. *)
Example C81_url_encoded_case : exists e,
  pairs_as (bs "a=%41&b%4") e /\
  e ++ [FEv EBodyFinished] = [FEv EUrlBegin; FByte KUrlName 97; FByte KUrlValue 65; FEv EUrlBegin; FByte KUrlName 98; FEv EBodyFinished].
Proof.
  destruct (proj1 (url_exact yes new 9 [bs "a=%41&b%4"] []
    [FEv EUrlBegin; FByte KUrlName 97; FByte KUrlValue 65; FEv EUrlBegin; FByte KUrlName 98; FEv EBodyFinished]
    ltac:(discriminate))) as (w & e & E & _ & H & Q).
  - do 2 eexists. split; vm_compute; reflexivity.
  - exists e. rewrite app_nil_r in E. cbn [List.concat] in E. rewrite app_nil_r in E. subst w. now split.
Qed.

(* So if two clients, with other handlers and parsers and other cuts, have read
   a message to its end, they agree on where it ends and on what it says, as
   soon as their streams agree as far as both have received them: x1 and x2 is
   what they have not received yet. *)
Theorem C81_heads_agree : forall h1 h2 q1 q2 segs1 segs2 x1 x2 p1 p2 log1 log2 tail1 tail2,
  hok (strip (List.concat segs1)) = true \/ (9 <= List.length (strip (hd [] segs1)))%nat ->
  hok (strip (List.concat segs2)) = true \/ (9 <= List.length (strip (hd [] segs2)))%nat ->
  feed h1 (init_head q1) segs1 = (p1, log1, tail1, OFinished) ->
  feed h2 (init_head q2) segs2 = (p2, log2, tail2, OFinished) ->
  List.concat segs1 ++ x1 = List.concat segs2 ++ x2 ->
  flat log1 = flat log2 /\ tail1 ++ x1 = tail2 ++ x2.
Proof. exact head_stays. Qed.
Print Assumptions C81_heads_agree.

Theorem C81_chunked_agree : forall h1 h2 q1 q2 segs1 segs2 x1 x2 p1 p2 log1 log2 tail1 tail2,
  feed h1 (init_chunked q1) segs1 = (p1, log1, tail1, OFinished) ->
  feed h2 (init_chunked q2) segs2 = (p2, log2, tail2, OFinished) ->
  List.concat segs1 ++ x1 = List.concat segs2 ++ x2 ->
  flat log1 = flat log2 /\ tail1 ++ x1 = tail2 ++ x2.
Proof. exact chunked_stays. Qed.
Print Assumptions C81_chunked_agree.

Theorem C81_multipart_agree : forall h1 h2 clen q1 q2 bd segs1 segs2 x1 x2 p1 p2 log1 log2 tail1 tail2,
  (forall l, h_clen h1 l = clen (flat l)) -> (forall l, h_clen h2 l = clen (flat l)) ->
  ~ In 13 bd -> N.of_nat (List.length bd) <= 2 ^ 14 ->
  feed h1 (set_boundary (init_multipart q1) bd) segs1 = (p1, log1, tail1, OFinished) ->
  feed h2 (set_boundary (init_multipart q2) bd) segs2 = (p2, log2, tail2, OFinished) ->
  List.concat segs1 ++ x1 = List.concat segs2 ++ x2 ->
  flat log1 = flat log2 /\ tail1 ++ x1 = tail2 ++ x2.
Proof. exact multipart_stays. Qed.
Print Assumptions C81_multipart_agree.

Theorem C81_url_encoded_agree : forall h1 h2 q1 q2 n segs1 segs2 x1 x2 p1 p2 log1 log2 tail1 tail2,
  segs1 <> [] -> segs2 <> [] ->
  feed h1 (set_length (init_url_encoded q1) n) segs1 = (p1, log1, tail1, OFinished) ->
  feed h2 (set_length (init_url_encoded q2) n) segs2 = (p2, log2, tail2, OFinished) ->
  List.concat segs1 ++ x1 = List.concat segs2 ++ x2 ->
  flat log1 = flat log2 /\ tail1 ++ x1 = tail2 ++ x2.
Proof. exact url_stays. Qed.
Print Assumptions C81_url_encoded_agree.

(* One of the clients has received more than the message. *)
Example C81_agree_case :
  let a := bs "GET / HTTP/1.1" ++ crlf ++ crlf in
  let b := bs "1;x" ++ crlf ++ bs "z" ++ crlf ++ bs "0" ++ crlf ++ crlf in
  let d := bs "a=%41&b" in
  let c := bs "--ab" ++ crlf ++ crlf ++ bs "x" ++ crlf ++ bs "--ab--" in
  (exists p1 p2 l1 l2,
    feed yes (init_head new) [a] = (p1, l1, [], OFinished) /\
    feed (Handler (fun _ _ => false) (fun _ => None)) (init_head new) [bs "GET"; skipn 3 a ++ a] = (p2, l2, a, OFinished)) /\
  (exists p1 p2 l1 l2,
    feed yes (init_chunked new) [b] = (p1, l1, [], OFinished) /\
    feed (Handler (fun _ _ => false) (fun _ => None)) (init_chunked new) [firstn 3 b; skipn 3 b ++ a] = (p2, l2, a, OFinished)) /\
  (exists p1 p2 l1 l2,
    feed yes (set_boundary (init_multipart new) (bs "ab")) [c] = (p1, l1, [], OFinished) /\
    feed (Handler (fun _ _ => false) (fun _ => None)) (set_boundary (init_multipart new) (bs "ab")) [firstn 3 c; skipn 3 c ++ a] = (p2, l2, a, OFinished)) /\
  (exists p1 p2 l1 l2,
    feed yes (set_length (init_url_encoded new) 7) [d] = (p1, l1, [], OFinished) /\
    feed (Handler (fun _ _ => false) (fun _ => None)) (set_length (init_url_encoded new) 7) [firstn 3 d; skipn 3 d ++ a] = (p2, l2, a, OFinished)).
Proof. repeat split; do 4 eexists; split; vm_compute; reflexivity. Qed.
