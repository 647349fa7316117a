(* HTTP/2 on arbitrary bytes: C62.  Vocabulary: Http2Spec.v, Http2Any.v. *)

From Coq Require Import NArith List Bool Arith String.
From Verif Require Import Bytes Http2Model Http2Spec Http2Samples Http2Any Http2AnyApi Http2AnySamples.
Import ListNotations.
Local Open Scope N_scope.

(* C62.  Whatever the bytes are, the observations are those of Http2Any.v, in
   every segmentation without a cut inside a 31- or 32-bit field that is read
   in one piece.  In a checked build a frame that is too short ends in an
   overflow; otherwise the parser stands where a new one stands after the
   incomplete frame alone. *)
Theorem C62_any_stream : forall chk h segs,
  bytes (List.concat segs) -> whole_fields segs ->
  (snd (decoded (List.concat segs)) = None -> chk = true) ->
  exists p log,
    feed chk h new segs =
      (p, log, match snd (decoded (List.concat segs)) with Some _ => OEos | None => OFault FOverflow end) /\
    flat log = fst (decoded (List.concat segs)) /\
    forall r, snd (decoded (List.concat segs)) = Some r ->
      (state p = StFrameLength1 <-> r = []) /\ (exists u, List.concat segs = u ++ r) /\
      exists q logq, feed chk h new [r] = (q, logq, OEos) /\ same_place p q.
Proof. exact h2_any. Qed.
Print Assumptions C62_any_stream.

(* C62.  On well-formed frames this specification says what that of C37 says. *)
Theorem C62_well_formed : forall fs (v : byte), Forall wf_frame fs -> v < 256 ->
  fst (decoded (render_all fs ++ [v])) = seen_all fs /\
  snd (decoded (render_all fs ++ [v])) <> None.
Proof. exact decoded_frames. Qed.
Print Assumptions C62_well_formed.

(* Two settings, an unsupported frame, half of a HEADERS frame. *)
Example C62_case :
  bytes (List.concat stream_pieces) /\ whole_fields stream_pieces /\
  snd (decoded (List.concat stream_pieces)) =
    Some [0; 0; 9; 1; 32; 0; 0; 0; 3; 128; 0; 0; 2; 7; 102; 114] /\
  snd (fst (feed false yes new stream_pieces)) =
    [EFrameFormat 12 4 0 0; ESettings 3 100; EFrameFormat 4 0 0 9;
     EData KData [100; 97] false; EData KData [116; 97] true;
     EFrameFormat 6 200 8 1; EData KUnsupported [97; 98; 99] true;
     EFrameFormat 9 1 32 3; EHeaders true 2 7; EData KFragment [102; 114] false].
Proof.
  split; [repeat constructor|]. split; [apply whole_check; vm_compute; reflexivity|].
  vm_compute. split; reflexivity.
Qed.

(* A frame that is too short for its padding. *)
Example C62_short_case :
  let segs := [firstn 13 stream_short; skipn 13 stream_short] in
  bytes (List.concat segs) /\ whole_fields segs /\ snd (decoded (List.concat segs)) = None /\
  fst (decoded (List.concat segs)) =
    [FEv (EFrameFormat 1 0 0 1); FByte KData 120; FEnd KData; FEv (EFrameFormat 2 0 8 1)].
Proof.
  split; [repeat constructor|]. split; [apply whole_check; vm_compute; reflexivity|].
  vm_compute. split; reflexivity.
Qed.

Example C62_well_formed_case :
  Forall wf_frame [sample_settings; sample_data] /\
  fst (decoded (render_all [sample_settings; sample_data] ++ [0])) =
    [FEv (EFrameFormat 6 4 0 0); FEv (ESettings 4 65535); FEv (EFrameFormat 7 0 9 5);
     FByte KData 100; FByte KData 97; FByte KData 116; FByte KData 97; FEnd KData].
Proof. split; [repeat constructor|vm_compute; reflexivity]. Qed.
