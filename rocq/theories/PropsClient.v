(* Responses with and without chunked bodies are received on one connection: C87.
   Vocabulary: receive_responses, received, answer, as_sent, told of ClientSpec.v,
   render_version of Http1Wire.v, work of Http1Program.v. *)

From Coq Require Import NArith List Bool Arith String.
From Verif Require Import Bytes Http1Model Http1Spec Http1Wire Http1Program FormSamples
  ClientSpec ClientFacts ClientLost ClientSamples.
Import ListNotations.
Local Open Scope N_scope.
Local Open Scope list_scope.

(* The program of ClientSpec.v reads any number of responses, each with or without a
   chunked body and trailers.  It finds each body by the last transfer coding, and it
   gets what was sent, however the stream is cut. *)
Theorem C87_responses_received :
  forall h clen p xs tail segs,
    (forall l, h_clen h l = clen (flat l)) -> Forall wf_answer xs -> segs <> [] ->
    List.concat segs = flat_map as_sent xs ++ tail ->
    exists p' log segs',
      work (uses xs) h receive_responses p [] segs = (p', log, segs', OFinished) /\
      List.concat segs' = tail /\ received (flat log) = map told xs.
Proof. exact responses_received. Qed.
Print Assumptions C87_responses_received.

Example C87_responses_received_case :
  Forall wf_answer three_responses /\
  (let '(_, log, segs, o) :=
     work (uses three_responses) yes receive_responses new [] (cut 3 90 (flat_map as_sent three_responses ++ [72])) in
   o = OFinished /\ List.concat segs = [72] /\ received (flat log) = map told three_responses) /\
  map n_status (map told three_responses) = [(1, 1, 100); (1, 1, 200); (1, 1, 100)] /\
  map n_body (map told three_responses) = [[]; bs "one" ++ [13; 10] ++ bs "HTTP/ " ++ [0; 255]; []].
Proof.
  split; [|vm_compute; repeat split].
  exact (Forall_cons _ a_continue_ok (Forall_cons _ a_page_ok (Forall_cons _ a_continue_ok (Forall_nil _)))).
Qed.

(* Reasons may be empty and may contain tabs (RFC 7230, 3.1.2), but the parser rejects
   such responses. *)
Theorem C87_reason_refuted : exists r1 r2,
  r1 = [] /\ r2 <> [] /\ reason_phrase r1 /\ reason_phrase r2 /\
  (let '(_, _, _, o) := feed yes (init_head new) [render_response (Response [] (bs "1", bs "1") (bs "200") r1 [])] in
   o = OError (ErStatus 13)) /\
  (let '(_, _, _, o) := feed yes (init_head new) [render_response (Response [] (bs "1", bs "1") (bs "200") r2 [])] in
   o = OError (ErStatus 9)).
Proof. exact no_reason. Qed.
Print Assumptions C87_reason_refuted.

(* In every case: a response with an empty reason, or with a control byte in it, ends in
   an error at this byte, however it is cut. *)
Theorem C87_bad_reason : forall h p w v c r b tail segs,
  blank w -> wf_version v -> List.length c = 3%nat -> Forall digit c ->
  Forall (fun x : byte => 32 <= x /\ x <> 127) r -> b < 32 \/ b = 127 -> (b = 13 -> r = []) ->
  List.concat segs = w ++ render_version v ++ [32] ++ c ++ [32] ++ r ++ b :: tail ->
  exists p' log rest, feed h (init_head p) segs = (p', log, rest, OError (ErStatus b)).
Proof. exact bad_reason. Qed.
Print Assumptions C87_bad_reason.

Example C87_bad_reason_case :
  wf_version (bs "1", bs "1") /\ Forall digit (bs "204") /\
  map (fun k => snd (feed yes (init_head new) (cut k 4 (crlf ++ render_version (bs "1", bs "1") ++ [32] ++ bs "204" ++ [32] ++ [] ++ 13 :: [10; 13; 10]))))
      [1%nat; 4%nat; 20%nat] = [OError (ErStatus 13); OError (ErStatus 13); OError (ErStatus 13)].
Proof.
  split; [split; [split; auto|split; [|split; [split; auto|]]]; repeat constructor; discriminate|].
  split; [repeat constructor; discriminate|]. vm_compute. reflexivity.
Qed.
