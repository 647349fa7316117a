(* HTTP/2 on arbitrary bytes in arbitrary pieces, in every build: C67.
   Vocabulary: Http2Spec.v, Http2Any.v, Http2Full.v. *)

From Coq Require Import NArith List Bool Arith String.
From Verif Require Import Bytes Http2Model Http2Spec Http2Any Http2Full Http2AnySamples Http2FullApi Http2Extends Http2FullSamples.
Import ListNotations.
Local Open Scope N_scope.

(* C67.  Whatever the bytes are and wherever they are cut into pieces, in
   checked and unchecked builds (there with pieces of at most 2^24 - 256 bytes)
   and with every handler, the observations, the overflows, the state and
   whether the parser stands between two frames are those of Http2Full.v. *)
Theorem C67_every_stream : forall chk h segs,
  bytes (List.concat segs) ->
  (chk = false -> Forall (fun s => N.of_nat (List.length s) <= 2 ^ 24 - 256) segs) ->
  exists p log,
    feed chk h new segs =
      (p, log, match snd (full chk segs) with Some _ => OEos | None => OFault FOverflow end) /\
    flat log = fst (full chk segs) /\
    forall a r, snd (full chk segs) = Some (a, r) ->
      state p = a /\ (a = StFrameLength1 <-> r = []) /\ exists u, List.concat segs = u ++ r.
Proof. exact h2_full. Qed.
Print Assumptions C67_every_stream.

(* C67.  Where no field is cut and nothing wraps around, this specification says
   what that of C62 says, up to the incomplete frame at the end. *)
Theorem C67_extends : forall chk segs,
  whole_fields segs ->
  (snd (decoded (List.concat segs)) = None -> chk = true) ->
  fst (full chk segs) = fst (decoded (List.concat segs)) /\
  option_map snd (snd (full chk segs)) = snd (decoded (List.concat segs)).
Proof. exact full_extends. Qed.
Print Assumptions C67_extends.

(* A frame too short for its padding: an overflow in a checked build; in an
   unchecked one the frame that follows is taken for data. *)
Example C67_short_case :
  bytes (List.concat [full_short]) /\ N.of_nat (List.length full_short) <= 2 ^ 24 - 256 /\
  full true [full_short] = ([FEv (EFrameFormat 2 0 8 1)], None) /\
  full false [full_short] =
    (FEv (EFrameFormat 2 0 8 1) :: map (FByte KData) (skipn 10 full_short), Some (StDataData, full_short)) /\
  snd (feed true full_pausing new [full_short]) = OFault FOverflow /\
  snd (fst (feed false full_pausing new [full_short])) =
    [EFrameFormat 2 0 8 1; EData KData (skipn 10 full_short) false].
Proof. split; [repeat constructor|]. vm_compute. repeat split; (reflexivity || discriminate). Qed.

(* Stream 16909060 is reported as stream 772. *)
Example C67_cut_case :
  full false [List.concat full_cut] =
    ([FEv (EFrameFormat 4 8 0 16909060); FEv (EWindowUpdate 100)], Some (StFrameLength1, [])) /\
  full false full_cut = ([FEv (EFrameFormat 4 8 0 772); FEv (EWindowUpdate 100)], Some (StFrameLength1, [])) /\
  snd (fst (feed false full_pausing new full_cut)) = [EFrameFormat 4 8 0 772; EWindowUpdate 100].
Proof. vm_compute. repeat split; reflexivity. Qed.

(* The setting is not reported, and nothing after it. *)
Example C67_lost_case :
  full true full_lost = ([FEv (EFrameFormat 6 4 0 0)], Some (StSettingsValue3, List.concat full_lost)) /\
  snd (fst (feed true full_pausing new full_lost)) = [EFrameFormat 6 4 0 0] /\
  fst (full true [List.concat full_lost]) =
    [FEv (EFrameFormat 6 4 0 0); FEv (ESettings 3 100); FEv (EFrameFormat 4 8 0 1); FEv (EWindowUpdate 1)].
Proof. vm_compute. repeat split; reflexivity. Qed.

Example C67_gone_case :
  full false full_gone = ([FEv (EFrameFormat 8 7 0 0)], Some (StGoAwayStreamId3, List.concat full_gone)) /\
  snd (fst (feed false full_pausing new full_gone)) = [EFrameFormat 8 7 0 0] /\
  state (fst (fst (feed false full_pausing new full_gone))) = StGoAwayStreamId3.
Proof. vm_compute. repeat split; reflexivity. Qed.

(* The state after each beginning of a frame. *)
Example C67_state_case :
  let f := List.concat full_cut in
  let states := [StFrameLength1; StFrameLength2; StFrameLength3; StFrameType; StFrameFlags;
     StFrameStreamId1; StFrameStreamId2; StFrameStreamId3; StFrameStreamId4; StWindowUpdateIncrement1;
     StWindowUpdateIncrement2; StWindowUpdateIncrement3; StWindowUpdateIncrement4; StFrameLength1] in
  map (fun n => match snd (full true [firstn n f]) with Some (a, _) => a | None => StDead end) (seq 0 14) = states /\
  map (fun n => state (fst (fst (feed true full_pausing new [firstn n f])))) (seq 0 14) = states.
Proof. vm_compute. split; reflexivity. Qed.

Example C67_extends_case :
  whole_fields stream_pieces /\
  snd (decoded (List.concat stream_pieces)) <> None /\
  fst (full false stream_pieces) = fst (decoded (List.concat stream_pieces)) /\
  option_map snd (snd (full false stream_pieces)) = snd (decoded (List.concat stream_pieces)).
Proof.
  split; [apply whole_check; vm_compute; reflexivity|].
  split; [vm_compute; discriminate|]. vm_compute. split; reflexivity.
Qed.
