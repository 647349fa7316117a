(* Requests for the examples of C86. *)

From Coq Require Import NArith List Bool Arith String Lia.
From Verif Require Import Bytes Http1Model Http1Spec Http1Wire Http1Program UtilModel UtilSpec UtilFields UtilIter FormSpec FormSamples ServerSpec.
Import ListNotations.
Local Open Scope N_scope.
Local Open Scope list_scope.

Definition a_get : sent := (Request crlf (bs "GET") (bs "/a") (bs "1", bs "1") [Header (bs "Host") [32] (bs "x") []], None).
Definition a_post (coding : string) : sent :=
  (Request [] (bs "POST") (bs "/b") (bs "1", bs "1")
     [Header (bs "Transfer-Encoding") [32] (bs coding) []; Header (bs "Host") [] (bs "y") []],
   Some ([Chunk (bs "3") [Ext [] (bs "k") None] (bs "one"); Chunk (bs "A") [] (crlf ++ bs "GET / " ++ [0; 255])],
         [Header (bs "Sum") [32] (bs "13") []])).
Definition three_requests : list sent := [a_get; a_post "gzip, Chunked"; a_get].

Lemma a_get_ok : wf_sent a_get.
Proof.
  split; [|split; [discriminate|reflexivity]].
  unfold wf_request, a_get. cbn. repeat first [split | discriminate | reflexivity | apply Forall_nil | apply Forall_cons | lia | cbn; lia].
Qed.

Lemma a_post_ok : wf_sent (a_post "gzip, Chunked").
Proof.
  split; [|split; [discriminate|]].
  { unfold wf_request. cbn. repeat first [split | discriminate | reflexivity | apply Forall_nil | apply Forall_cons | lia | cbn; lia]. }
  cbn [snd a_post]. split; [|split].
  - unfold wf_chunk, wf_ext, hexdigit. cbn.
    repeat first [split | discriminate | reflexivity | apply Forall_nil | apply Forall_cons | lia | cbn; lia].
  - unfold wf_header. cbn. repeat first [split | discriminate | reflexivity | apply Forall_nil | apply Forall_cons | lia | cbn; lia].
  - exists (bs "gzip" ++ 44 :: ([32] ++ bs "Chunked")), [(bs "gzip", None)], None. split; [reflexivity|].
    apply (f_cons true 44 (bs "gzip") (bs "gzip", None)).
    + apply (ff_name true 44 [] (bs "gzip")); [constructor|]. now apply name_check.
    + apply f_last. apply (fl_name true 44 [32] (bs "Chunked")).
      * repeat constructor.
      * now apply name_check.
      * split; [discriminate|]. split; [discriminate|]. intros [_ U]. unfold upper in U. cbn in U. lia.
Qed.

(* Names of codings are case-insensitive (RFC 7230, 4), but "CHUNKED" is not found. *)
Lemma coding_lost : exists a b,
  map lower_case (bs a) = map lower_case (bs b) /\
  (let '(_, log, segs, o) := work 2 yes serve_requests new [] [on_wire (a_post a)] in
   o = OFinished /\ List.concat segs = [] /\ served (flat log) = [meant (a_post a)]) /\
  (let '(_, log, _, o) := work 2 yes serve_requests new [] [on_wire (a_post b)] in
   o = OError (ErMethod 51) /\ map g_body (served (flat log)) = [[]]).
Proof. exists "chunked"%string, "CHUNKED"%string. vm_compute. repeat split. Qed.
