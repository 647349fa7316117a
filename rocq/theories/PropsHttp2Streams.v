(* What is sent on the streams of an HTTP/2 connection can be put together: C85.
   Vocabulary: message, frames_of, wf_message, says, put_together, data_on of
   Http2Streams.v, render_all, safe_cuts of Http2Spec.v. *)

From Coq Require Import NArith List Bool Arith String.
From Verif Require Import Bytes Http2Model Http2Spec Http2Samples Http2Streams Http2StreamsFacts Http2StreamsSamples.
Import ListNotations.
Local Open Scope N_scope.
Local Open Scope list_scope.

(* Whatever is sent, in whatever order on whatever streams, cut anywhere but inside
   the fields of C35 and C36; v: the first byte of what follows (C42). *)
Theorem C85_streams_heard : forall ms v segs chk h,
  Forall wf_message ms -> v < 256 ->
  List.concat segs = render_all (flat_map frames_of ms) ++ [v] -> safe_cuts (flat_map frames_of ms) segs ->
  exists p log, feed chk h new segs = (p, log, OEos) /\ put_together (flat log) = flat_map says ms.
Proof. exact streams_heard. Qed.
Print Assumptions C85_streams_heard.

Example C85_case :
  Forall wf_message sample_messages /\ List.concat sample_cut = sample_stream /\
  safe_cuts (flat_map frames_of sample_messages) sample_cut /\
  flat_map says sample_messages =
    [(1, PHeaders (bs "get a")); (1, PEnd); (3, PHeaders (bs "post b")); (3, PData (bs "one "));
     (1, PPromise 2 (bs "get c")); (2, PData []); (3, PData (bs "two")); (3, PEnd)] /\
  (let '(_, log, o) := feed true never new sample_cut in (put_together (flat log), o)) =
  (flat_map says sample_messages, OEos).
Proof.
  split; [exact sample_messages_ok|]. split; [vm_compute; reflexivity|].
  split; [apply safe_check; vm_compute; reflexivity|]. split; vm_compute; reflexivity.
Qed.

(* So the data of a stream is what its DATA frames contain, without padding. *)
Theorem C85_data : forall ms s, data_on s (flat_map says ms) =
  flat_map (fun m => match m with MData s' _ d _ => if s' =? s then d else [] | _ => [] end) ms.
Proof. exact data_heard. Qed.
Print Assumptions C85_data.

Example C85_data_case :
  (let '(_, log, _) := feed true never new sample_cut in data_on 3 (put_together (flat log))) = bs "one two".
Proof. vm_compute. reflexivity. Qed.

(* If a piece ends inside of a stream identifier, data may be put down to another
   stream that is in use. *)
Theorem C85_any_cut_refuted : exists ms v segs,
  Forall wf_message ms /\ v < 256 /\ List.concat segs = render_all (flat_map frames_of ms) ++ [v] /\
  let '(p, log, o) := feed true yes new segs in
  o = OEos /\ put_together (flat log) = [(1, PData (bs "mine")); (1, PData (bs "yours"))] /\
  flat_map says ms = [(1, PData (bs "mine")); (65537, PData (bs "yours"))].
Proof. exact stream_confused. Qed.
Print Assumptions C85_any_cut_refuted.
