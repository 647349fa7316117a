(* How HTTP/2 data is handed to the handler: C69.  Vocabulary: Http2Spec.v,
   Http2Full.v, cut_from of Http2Pieces.v. *)

From Coq Require Import NArith List Bool Arith String.
From Verif Require Import Bytes Http2Model Http2Spec Http2Samples Http2Full Http2FullSamples Http2Pieces Http2PiecesFacts.
Import ListNotations.
Local Open Scope N_scope.

(* C69, one call.  Any parser, any bytes, any handler, every build. *)
Theorem C69_data_in_piece : forall chk h p log s p' log' r,
  resume chk h p log s = (p', log', r) ->
  exists calls, log' = log ++ calls /\ cut_from s calls.
Proof. exact h2_data_in_piece. Qed.
Print Assumptions C69_data_in_piece.

(* C69, a stream in pieces: to every piece belong calls whose data are cut out of
   it, and after every piece exactly the observations of the pieces so far (cf.
   C67) have been made. *)
Theorem C69_calls_of_pieces : forall chk h segs p log o,
  bytes (List.concat segs) ->
  (chk = false -> Forall (fun s => N.of_nat (List.length s) <= 2 ^ 24 - 256) segs) ->
  feed chk h new segs = (p, log, o) ->
  exists parts, log = List.concat parts /\ Forall2 cut_from segs parts /\
    forall i, flat (List.concat (firstn i parts)) = fst (full chk (firstn i segs)).
Proof. exact h2_pieces. Qed.
Print Assumptions C69_calls_of_pieces.

(* C69.  This determines the calls: they do not depend on where the handler
   pauses the parser. *)
Theorem C69_same_calls : forall chk h h' segs,
  bytes (List.concat segs) ->
  (chk = false -> Forall (fun s => N.of_nat (List.length s) <= 2 ^ 24 - 256) segs) ->
  snd (fst (feed chk h new segs)) = snd (fst (feed chk h' new segs)) /\
  snd (feed chk h new segs) = snd (feed chk h' new segs).
Proof. exact h2_same_calls. Qed.
Print Assumptions C69_same_calls.

(* A padded DATA frame cut inside its data: two fragments, the first of which
   ends with the piece. *)
Example C69_case :
  let segs := [firstn 12 (render sample_data); skipn 12 (render sample_data)] in
  bytes (List.concat segs) /\ Forall (fun s => N.of_nat (List.length s) <= 2 ^ 24 - 256) segs /\
  snd (fst (feed true yes new segs)) = snd (fst (feed false never new segs)) /\
  snd (fst (feed true yes new segs)) =
    [EFrameFormat 7 0 9 5; EData KData [100; 97] false; EData KData [116; 97] true].
Proof. split; [repeat constructor|]. split; [repeat constructor; discriminate|]. split; vm_compute; reflexivity. Qed.
