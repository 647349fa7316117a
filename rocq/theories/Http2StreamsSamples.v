(* A connection for the examples of C85. *)

From Coq Require Import NArith List Bool Arith String.
From Verif Require Import Bytes Http2Model Http2Spec Http2Samples Http2Streams.
Import ListNotations.
Local Open Scope N_scope.
Local Open Scope list_scope.

Definition sample_messages : list message :=
  [MHeaders 1 None None (bs "get a") [] true;
   MHeaders 3 (Some [0; 0]) (Some (Prio true 1 7)) (bs "po") [bs "st"; []; bs " b"] false;
   MOther (Frame 0 false 0 (BPing (bs "12345678")));
   MData 3 None (bs "one ") false;
   MPromise 1 (Some []) 2 (bs "get") [bs " c"];
   MData 2 None [] false;
   MData 3 (Some [0]) (bs "two") true].

Definition sample_stream : list byte := render_all (flat_map frames_of sample_messages) ++ [0].
(* Cut inside of fragments and lengths, but not inside of stream identifiers. *)
Definition sample_cut : list (list byte) :=
  [firstn 12 sample_stream; firstn 5 (skipn 12 sample_stream); [];
   firstn 40 (skipn 17 sample_stream); skipn 57 sample_stream].

(* Two streams with data. *)
Definition two_streams : list message :=
  [MData 1 None (bs "mine") false; MData 65537 None (bs "yours") false].
(* The second frame header is cut inside of its stream identifier. *)
Definition two_streams_cut : list (list byte) :=
  let s := render_all (flat_map frames_of two_streams) ++ [0] in [firstn 20 s; skipn 20 s].

Lemma wf_small f : f_flags f < 256 -> f_stream f < 2 ^ 31 -> wf_body (f_flags f) (f_body f) ->
  forallb (fun b => b <? 256) (payload (f_body f)) = true ->
  N.of_nat (List.length (payload (f_body f))) < 2 ^ 24 -> wf_frame f.
Proof.
  intros A B C D E. repeat split; try assumption. apply Forall_forall. intros b I. rewrite forallb_forall in D.
  apply N.ltb_lt. now apply D.
Qed.

Ltac frame_ok :=
  apply wf_small; [reflexivity|reflexivity|cbn; repeat split; try reflexivity; try (repeat constructor)|reflexivity|reflexivity].
Ltac message_ok := split; [repeat (apply Forall_cons; [frame_ok|]); apply Forall_nil|exact I].

Lemma sample_messages_ok : Forall wf_message sample_messages.
Proof. repeat (apply Forall_cons; [message_ok|]). apply Forall_nil. Qed.
Lemma two_streams_ok : Forall wf_message two_streams.
Proof. repeat (apply Forall_cons; [message_ok|]). apply Forall_nil. Qed.

Lemma stream_confused : exists ms v segs,
  Forall wf_message ms /\ v < 256 /\ List.concat segs = render_all (flat_map frames_of ms) ++ [v] /\
  let '(p, log, o) := feed true yes new segs in
  o = OEos /\ put_together (flat log) = [(1, PData (bs "mine")); (1, PData (bs "yours"))] /\
  flat_map says ms = [(1, PData (bs "mine")); (65537, PData (bs "yours"))].
Proof.
  exists two_streams, 0, two_streams_cut. split; [exact two_streams_ok|]. split; [reflexivity|].
  split; [vm_compute; reflexivity|]. vm_compute. repeat split.
Qed.
