(* What happens in every case of C35, C36, C39, C40 and C42, each of which is
   refuted by a witness in PropsHttp2Refuted.v.
   Vocabulary: Http2Spec.v; chk says whether the crate was built with overflow
   checks, h is an arbitrary handler. *)

From Coq Require Import NArith List Bool Arith String.
From Verif Require Import Bytes Http2Model Http2Spec Http2Samples Http2Always.
Import ListNotations.
Local Open Scope N_scope.
Local Open Scope list_scope.

(* C35: whenever a piece ends inside the stream identifier of a frame header, its
   low 16 bits alone are reported, hence an identifier of more than 16 bits is
   always reported wrong. *)
Theorem C35_every_cut : forall chk h len t f rsv sid before after,
  len < 2 ^ 24 -> t < 256 -> f < 256 -> sid < 2 ^ 31 ->
  List.concat (before ++ after) = render_header len t f rsv sid ->
  (5 < List.length (List.concat before) < 9)%nat ->
  exists p log, feed chk h new (before ++ after) = (p, log, OEos) /\
    flat log = [FEv (EFrameFormat len t f (sid mod 2 ^ 16))].
Proof. exact cut_identifier. Qed.
Print Assumptions C35_every_cut.

Example C35_every_case :
  List.concat ([[0; 0; 5; 0; 1]; [0; 1]] ++ [[0; 3]]) = render_header 5 0 1 false 65539 /\
  List.length (List.concat [[0; 0; 5; 0; 1]; [0; 1]]) = 7%nat /\ 65539 mod 2 ^ 16 = 3.
Proof. vm_compute. auto. Qed.

(* C36: whenever a piece ends inside the last stream identifier of a GOAWAY frame
   or the value of a SETTINGS frame, its contents and all that follows, whatever
   it is, are never reported. *)
Theorem C36_every_cut : forall chk h len t f rsv sid body before after,
  len < 2 ^ 24 -> t < 256 -> f < 256 -> sid < 2 ^ 31 -> bytes body ->
  List.concat (before ++ after) = render_header len t f rsv sid ++ body ->
  t = 7 /\ (9 < List.length (List.concat before) < 13)%nat \/
  t = 4 /\ (11 < List.length (List.concat before) < 15)%nat ->
  (chk = false -> Forall (fun s => N.of_nat (List.length s) <= 2 ^ 24 - 256) (before ++ after)) ->
  exists p log id, feed chk h new (before ++ after) = (p, log, OEos) /\
    flat log = [FEv (EFrameFormat len t f id)].
Proof. exact cut_for_ever. Qed.
Print Assumptions C36_every_cut.

Example C36_every_case :
  List.concat ([[0; 0; 6; 4; 0; 0; 0; 0; 0; 0; 1; 0]] ++ [[0; 0; 5]; [0; 0; 0; 0; 0; 0; 0; 0; 1]]) =
    render_header 6 4 0 false 0 ++ be16 1 ++ be32 5 ++ render_header 0 0 0 false 1.
Proof. reflexivity. Qed.

(* C39: every DATA frame whose padding is as long as the payload or longer makes
   the subtraction overflow as soon as a byte follows the pad length; without
   overflow checks all that follows is reported as data of that frame, up to
   2^24 - 256 bytes at least. *)
Theorem C39_every_frame : forall chk h len f rsv sid z b d,
  0 < len < 2 ^ 24 -> f < 256 -> flag_padded f = true -> sid < 2 ^ 31 -> z < 256 -> len - 1 < z -> bytes (b :: d) ->
  N.of_nat (10 + List.length (b :: d)) <= 2 ^ 24 - 256 ->
  exists p log, feed chk h new [render_header len 0 f rsv sid ++ z :: b :: d] =
      (p, log, if chk then OFault FOverflow else OEos) /\
    flat log = FEv (EFrameFormat len 0 f sid) :: (if chk then [] else map (FByte KData) (b :: d)).
Proof. exact long_padding. Qed.
Print Assumptions C39_every_frame.

Example C39_every_case : flag_padded 8 = true /\ 3 - 1 < 3 /\ bytes [1; 2] /\
  (let '(_, log, o) := feed false yes new [render_header 3 0 8 false 1 ++ [3; 1; 2; 0; 0; 0]] in (flat log, o)) =
  ([FEv (EFrameFormat 3 0 8 1); FByte KData 1; FByte KData 2; FByte KData 0; FByte KData 0; FByte KData 0], OEos).
Proof. repeat split; try reflexivity. now repeat constructor. Qed.

(* C40: of every SETTINGS frame, whatever length its header announces, exactly six
   bytes are read; the seventh begins the next frame. *)
Theorem C40_six_bytes : forall chk h len f rsv sid i v,
  len < 2 ^ 24 -> f < 256 -> sid < 2 ^ 31 -> i < 2 ^ 16 -> v < 2 ^ 32 ->
  exists p log, feed chk h new [render_header len 4 f rsv sid ++ be16 i ++ be32 v] = (p, log, OEos) /\
    flat log = [FEv (EFrameFormat len 4 f sid); FEv (ESettings i v)] /\ state p = StFrameLength1.
Proof. exact settings_six. Qed.
Print Assumptions C40_six_bytes.

Example C40_six_case :
  (let '(p, log, o) := feed true yes new [render_header 0 4 1 false 0 ++ be16 0 ++ be32 3] in (flat log, o, state p)) =
  ([FEv (EFrameFormat 0 4 1 0); FEv (ESettings 0 3)], OEos, StFrameLength1).
Proof. vm_compute. reflexivity. Qed.

(* C42: of every frame that does not end with a byte of data or padding and does
   not consist of fixed fields, some last callbacks have not been made when it
   has been fed. *)
Theorem C42_every_other_late : forall chk h f segs,
  wf_frame f -> ~ prompt (f_body f) -> List.concat segs = render f -> safe_cuts [f] segs ->
  exists p log late, feed chk h new segs = (p, log, OEos) /\ late <> [] /\ flat log ++ late = seen f.
Proof. exact late_anyhow. Qed.
Print Assumptions C42_every_other_late.

Example C42_late_case : let f := Frame 1 false 3 (BPushPromise None false 5 []) in
  wf_frame f /\ ~ prompt (f_body f) /\
  (let '(_, log, o) := feed true yes new [render f] in (flat log, o)) = ([FEv (EFrameFormat 4 5 1 3)], OEos) /\
  seen f = [FEv (EFrameFormat 4 5 1 3); FEv (EPushPromise 5); FEnd KFragment].
Proof.
  cbv zeta. split; [|split; [|split; vm_compute; reflexivity]].
  - assert (Forall wf_frame [Frame 1 false 3 (BPushPromise None false 5 [])]) as H by wf_frames. now inversion H.
  - intros [H|(z & H & _)]; [now apply H|discriminate H].
Qed.
