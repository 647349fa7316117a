(* Properties the HTTP/2 parser does not have, with witnesses: C35, C36, C39, C40,
   C41, C42. *)

From Coq Require Import NArith List Bool Arith String.
From Verif Require Import Bytes Http2Model Http2Spec Http2Samples Http2Refute.
Import ListNotations.
Local Open Scope N_scope.

(* C35: a SETTINGS frame of stream 66051 (0x010203), cut inside the stream
   identifier, is reported for stream 515 (0x0203). *)
Theorem C35_stream_id_cut_refuted : exists f s1 s2,
  wf_frame f /\ s1 ++ s2 = render f /\
  (let '(_, log, o) := feed true yes new [s1 ++ s2] in
   o = OEos /\ last_header log <> None /\ flat log = seen f) /\
  (let '(_, log, o) := feed true yes new [s1; s2] in
   o = OEos /\ hd_error log = Some (EFrameFormat 6 4 0 515) /\ f_stream f = 66051).
Proof. exact stream_id_cut. Qed.
Print Assumptions C35_stream_id_cut_refuted.

(* C36: after a GOAWAY frame has been cut in its last-stream-id, nothing is ever
   reported again, whatever is fed. *)
Theorem C36_go_away_cut_refuted : exists f s1 s2,
  wf_frame f /\ s1 ++ s2 = render f /\
  (let '(_, log, o) := feed true yes new [s1 ++ s2] in o = OEos /\ flat log = seen f) /\
  forall segs, exists p, feed true yes new (s1 :: segs) = (p, [EFrameFormat 8 7 0 0], OEos).
Proof. exact go_away_stuck. Qed.
Print Assumptions C36_go_away_cut_refuted.

(* C36: the same for a SETTINGS frame cut in its value. *)
Theorem C36_settings_cut_refuted : exists f s1 s2,
  wf_frame f /\ s1 ++ s2 = render f /\
  (let '(_, log, o) := feed true yes new [s1 ++ s2] in o = OEos /\ flat log = seen f) /\
  forall segs, exists p, feed true yes new (s1 :: segs) = (p, [EFrameFormat 6 4 0 0], OEos).
Proof. exact settings_stuck. Qed.
Print Assumptions C36_settings_cut_refuted.

(* C39: a DATA frame of length 3 with pad length 3.  With overflow checks the
   parser panics; without, the following frames are reported as its data. *)
Theorem C39_long_padding_refuted : exists s,
  bytes s /\ hd_error s = Some 3 /\ List.length s = 3%nat /\
  snd (feed true yes new [render_header 3 0 8 false 1 ++ s]) = OFault FOverflow /\
  (let '(_, log, o) := feed false yes new [render_header 3 0 8 false 1 ++ s ++ render_all sample_frames] in
   o = OEos /\ flat log = FEv (EFrameFormat 3 0 8 1) :: map (FByte KData) (tl s ++ render_all sample_frames)).
Proof. exact long_padding. Qed.
Print Assumptions C39_long_padding_refuted.

(* C40: after a SETTINGS frame without settings (such as an acknowledgement) a
   setting is reported that was never sent and the following frame is lost; of
   two settings the second is lost, and the following frame as well. *)
Theorem C40_settings_size_refuted :
  (let '(_, log, o) := feed true yes new [render_header 0 4 1 false 0 ++ render sample_data] in
   o = OEos /\ hd_error log = Some (EFrameFormat 0 4 1 0) /\ (exists v, In (ESettings 0 v) log) /\
   ~ In (EData KData (bs "data") true) log) /\
  (let '(_, log, o) := feed true yes new
     [render_header 12 4 0 false 0 ++ (be16 4 ++ be32 65535) ++ (be16 3 ++ be32 100) ++
      render sample_data] in
   o = OEos /\ hd_error log = Some (EFrameFormat 12 4 0 0) /\ In (ESettings 4 65535) log /\
   ~ In (ESettings 3 100) log /\ ~ In (EData KData (bs "data") true) log).
Proof. exact settings_size. Qed.
Print Assumptions C40_settings_size_refuted.

(* C41: the reserved bit is reported as part of a promised stream identifier and
   of a window increment. *)
Theorem C41_reserved_bits_refuted :
  (exists f v, wf_frame f /\ type_of (f_body f) = 5 /\ 2 ^ 31 <= v /\
    (let '(_, log, o) := feed true yes new [render f] in o = OEos /\ In (EPushPromise v) log)) /\
  (exists f v, wf_frame f /\ type_of (f_body f) = 8 /\ 2 ^ 31 <= v /\
    (let '(_, log, o) := feed true yes new [render f] in o = OEos /\ In (EWindowUpdate v) log)).
Proof. exact reserved_bits. Qed.
Print Assumptions C41_reserved_bits_refuted.

(* C42: the end of an empty DATA frame is reported only when a byte of the next
   frame arrives. *)
Theorem C42_late_data_callback_refuted : exists f, wf_frame f /\
  (let '(_, log, o) := feed true yes new [render f] in o = OEos /\ ~ In (FEnd KData) (flat log)) /\
  (forall v, v < 256 ->
   let '(_, log, o) := feed true yes new [render f; [v]] in o = OEos /\ flat log = seen f).
Proof. exact late_callback. Qed.
Print Assumptions C42_late_data_callback_refuted.
