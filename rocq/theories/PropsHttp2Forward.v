(* Passing HTTP/2 frames on: C80.  Vocabulary: the writer of Http2Forward.v,
   which turns what a handler is told into frames again; feed, flat, frames and
   their wire format of Http2Spec.v; whole_fields of Http2Any.v.  h, h2 are
   arbitrary handlers, segs, segs2 the pieces the two streams arrive in. *)

From Coq Require Import NArith List Bool Arith String.
From Verif Require Import Bytes Http2Model Http2Spec Http2Samples Http2Any Http2AnySamples
  Http2Forward Http2ForwardFacts.
Import ListNotations.
Local Open Scope N_scope.

(* C80.  Any bytes, cut anywhere, read in a build with overflow checks up to the
   end of a frame.  What is written for it is told again, in every build. *)
Theorem C80_passed_on : forall h segs p log chk2 h2 segs2,
  bytes (List.concat segs) -> feed true h new segs = (p, log, OEos) -> state p = StFrameLength1 ->
  List.concat segs2 = frames_written (flat log) -> whole_fields segs2 ->
  exists p2 log2, feed chk2 h2 new segs2 = (p2, log2, OEos) /\ state p2 = StFrameLength1 /\ flat log2 = flat log.
Proof. exact frames_passed_on. Qed.
Print Assumptions C80_passed_on.

(* The hypothesis on the second stream holds if it comes in one piece. *)
Theorem C80_one_piece : forall h segs p log,
  bytes (List.concat segs) -> feed true h new segs = (p, log, OEos) -> state p = StFrameLength1 ->
  whole_fields [frames_written (flat log)].
Proof. exact whole_one. Qed.
Print Assumptions C80_one_piece.

(* Of well-formed frames the same frames are written, apart from the padding and
   two reserved bits, which are zero. *)
Theorem C80_well_formed : forall fs v segs chk h,
  Forall wf_frame fs -> v < 256 -> List.concat segs = render_all fs ++ [v] -> safe_cuts fs segs ->
  exists p log, feed chk h new segs = (p, log, OEos) /\
    frames_written (flat log) = render_all (map zeroed fs) /\
    Forall wf_frame (map zeroed fs) /\ seen_all (map zeroed fs) = flat log.
Proof. exact frames_written_plain. Qed.
Print Assumptions C80_well_formed.

(* Two settings in one frame, the second of which is taken for another header,
   and an unsupported frame with padding and a piece that ends in its stream
   identifier: of that only the last two bytes are passed on. *)
Example C80_case :
  let s := stream_settings ++ stream_data in
  let u := [0; 0; 6; 200; 8; 128; 7; 0; 1; 2] ++ bs "abc" ++ [9; 9] in
  let segs := [s ++ firstn 7 u; skipn 7 u] in
  let p := fst (fst (feed true yes new segs)) in
  let log := snd (fst (feed true yes new segs)) in
  bytes (List.concat segs) /\ snd (feed true yes new segs) = OEos /\ state p = StFrameLength1 /\
  flat log =
    [FEv (EFrameFormat 12 4 0 0); FEv (ESettings 3 100); FEv (EFrameFormat 4 0 0 9);
     FByte KData 100; FByte KData 97; FByte KData 116; FByte KData 97; FEnd KData;
     FEv (EFrameFormat 6 200 8 1); FByte KUnsupported 97; FByte KUnsupported 98; FByte KUnsupported 99;
     FEnd KUnsupported] /\
  frames_written (flat log) = s ++ [0; 0; 6; 200; 8; 0; 0; 0; 1; 2] ++ bs "abc" ++ [0; 0] /\
  whole_fields [frames_written (flat log)].
Proof.
  cbv zeta. split; [repeat constructor|]. split; [vm_compute; reflexivity|].
  split; [vm_compute; reflexivity|]. split; [vm_compute; reflexivity|].
  split; [vm_compute; reflexivity|]. apply whole_check. vm_compute. reflexivity.
Qed.

Example C80_well_formed_case :
  Forall wf_frame sample_frames /\ safe_cuts sample_frames (sample_pieces ++ [[0]]) /\
  List.concat (sample_pieces ++ [[0]]) = render_all sample_frames ++ [0] /\
  zeroed sample_go_away = Frame 0 false 0 (BGoAway false 2147483647 4027576335 (bs "debug")) /\
  zeroed sample_data = Frame 9 false 5 (BData (Some [0; 0]) (bs "data")) /\
  render sample_data <> render (zeroed sample_data) /\
  frames_written (flat (snd (fst (feed false yes new (sample_pieces ++ [[0]]))))) =
    render_all (map zeroed sample_frames).
Proof.
  split; [wf_frames|]. split; [apply safe_check; vm_compute; reflexivity|].
  split; [vm_compute; reflexivity|]. split; [reflexivity|]. split; [reflexivity|].
  split; [discriminate|]. vm_compute. reflexivity.
Qed.
