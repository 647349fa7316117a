(* Witnesses for the properties the HTTP/1 parser does not have. *)

From Coq Require Import NArith List Bool Arith String Lia.
From Verif Require Import Bytes ByteStream Http1Model Http1Spec.
Import ListNotations.
Local Open Scope N_scope.

Lemma double_count : exists body : list byte,
  let '(p', _, r) :=
    resume yes (set_length (init_url_encoded new) (N.of_nat (List.length body))) [] body in
  r = ROk (SFinished (List.length body)) /\ byte_count p' <> N.of_nat (List.length body).
Proof. exists (bs "a=b"). vm_compute. split; [reflexivity|discriminate]. Qed.

Lemma head_lost : exists s1 s2 : list byte,
  s1 ++ s2 = bs "HEAD / HTTP/1.1" ++ crlf ++ crlf /\
  (let '(_, l1, rest, o) := feed yes (init_head new) [s1 ++ s2] in
   rest = [] /\ o = OFinished /\ data_of KMethod l1 = bs "HEAD") /\
  (let '(_, l2, rest, o) := feed yes (init_head new) [s1; s2] in
   rest = [] /\ o = OFinished /\ data_of KMethod l2 = bs "EAD").
Proof.
  exists (bs "HEA"), (bs "D / HTTP/1.1" ++ crlf ++ crlf). vm_compute.
  repeat split; reflexivity.
Qed.

Lemma panics :
  (exists s, snd (feed yes (init_head new) [bs "GET / HTTP/1.1" ++ crlf ++ s]) = OFault FIndexPanic) /\
  (exists s, snd (feed yes (init_head new) [bs "GET / HTTP/1.1" ++ crlf ++ bs "a: b" ++ s]) = OFault FIndexPanic) /\
  (exists s, snd (feed yes (init_chunked new) [bs "1;a=" ++ s]) = OFault FIndexPanic) /\
  snd (feed yes new [[]]) = OFault FOutOfBounds /\
  (exists s, snd (feed yes (init_multipart new) [s]) = OFault FUnwrapPanic).
Proof.
  repeat split.
  - exists (bs "a" ++ [255]). vm_compute. reflexivity.
  - exists [255]. vm_compute. reflexivity.
  - exists (bs "b" ++ [255]). vm_compute. reflexivity.
  - exists (bs "--b"). vm_compute. reflexivity.
Qed.

Lemma zero_chunk_ext : exists ext : list byte,
  (let '(p', _, rest, o) := feed yes (init_chunked new) [bs "0" ++ ext ++ crlf ++ crlf] in
   rest = [] /\ o = OEos /\ state p' = StChunkLength1) /\
  snd (feed yes (init_chunked new) [bs "0" ++ crlf ++ crlf]) = OFinished /\
  snd (feed yes (init_chunked new)
         [bs "1" ++ ext ++ crlf ++ bs "x" ++ crlf ++ bs "0" ++ crlf ++ crlf]) = OFinished.
Proof. exists (bs ";a=b"). vm_compute. repeat split; reflexivity. Qed.

Lemma multipart_cr_data : exists bd data : list byte,
  (forall x y, data <> x ++ crlf ++ bs "--" ++ bd ++ y) /\
  (let '(_, log', rest, o) :=
     feed yes (set_boundary (init_multipart new) bd)
       [bs "--" ++ bd ++ crlf ++ crlf ++ data ++ crlf ++ bs "--" ++ bd ++ bs "--"] in
   rest = [] /\ o = OEos /\ data_of KMultipartData log' <> data) /\
  snd (feed yes (set_boundary (init_multipart new) bd)
    [bs "--" ++ bd ++ crlf ++ crlf ++ removelast data ++ crlf ++ bs "--" ++ bd ++ bs "--"]) = OFinished.
Proof.
  exists (bs "B"), (bs "x" ++ [13]). split; [|split].
  - intros x y E. apply (f_equal (@List.length byte)) in E. rewrite !app_length in E. cbn in E. lia.
  - vm_compute. repeat split; discriminate.
  - vm_compute. reflexivity.
Qed.

Lemma truncated_escape :
  snd (feed yes (set_length (init_url_encoded new) 3) [bs "a=%"]) = OFinished /\
  snd (feed yes (set_length (init_url_encoded new) 4) [bs "a=%4"]) = OFinished.
Proof. vm_compute. split; reflexivity. Qed.

Lemma new_whitespace : exists s b,
  snd (feed yes new [s]) = OError (ErMethod b) /\ snd (feed yes (init_head new) [s]) = OFinished.
Proof. exists (crlf ++ bs "GET / HTTP/1.1" ++ crlf ++ crlf), 13. vm_compute. split; reflexivity. Qed.

(* A boundary with a carriage return, cut behind it inside data. *)
Lemma boundary_cr_cut : exists bd s1 s2,
  In 13 bd /\
  (let '(_, log, rest, o) := feed yes (set_boundary (init_multipart new) bd) [s1 ++ s2] in
   rest = [] /\ o = OFinished /\ data_of KMultipartData log = crlf ++ bs "--a") /\
  (let '(_, log, rest, o) := feed yes (set_boundary (init_multipart new) bd) [s1; s2] in
   rest = [] /\ o = OEos /\ data_of KMultipartData log = crlf ++ bs "--a" ++ [13] ++ s2).
Proof.
  pose (bd := bs "a" ++ [13] ++ bs "b").
  exists bd, (bs "--" ++ bd ++ crlf ++ crlf ++ crlf ++ bs "--a" ++ [13]), ([10] ++ bs "--" ++ bd ++ bs "--").
  subst bd. split; [right; left; reflexivity|].
  split; vm_compute; repeat split.
Qed.

(* A boundary longer than the 14 bits counting its bytes, cut behind the last
   byte they can count. *)
Lemma boundary_long_cut : exists bd s1 s2,
  ~ In 13 bd /\ N.of_nat (List.length bd) = 2 ^ 14 + 1 /\ s1 ++ s2 = bs "--" ++ bd ++ bs "--" /\
  snd (feed yes (set_boundary (init_multipart new) bd) [s1 ++ s2]) = OFinished /\
  snd (feed yes (set_boundary (init_multipart new) bd) [s1; s2]) = OError (ErMultipartBoundary 98).
Proof.
  exists (repeat 97 (Pos.to_nat (2 ^ 14)) ++ [98]), (bs "--" ++ repeat 97 (Pos.to_nat (2 ^ 14))), ([98] ++ bs "--").
  split; [|split; [|split]].
  - intros I. apply in_app_or in I. destruct I as [I|[I|[]]]; [apply repeat_spec in I|]; discriminate I.
  - rewrite app_length, repeat_length. reflexivity.
  - now rewrite <- !app_assoc.
  - split; vm_compute; reflexivity.
Qed.
