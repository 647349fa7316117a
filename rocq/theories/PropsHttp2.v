(* HTTP/2: termination, segmentation, decoding of frames, accounting, identifiers:
   C33, C34, C37, C38, C41, C42, C53.  Vocabulary: Http2Spec.v.  In every theorem
   chk says whether the crate was built with overflow checks, and the handler h
   is arbitrary: it may pause the parser at any callback. *)

From Coq Require Import NArith List Bool Arith String.
From Verif Require Import Bytes Http2Model Http2Spec Http2Samples Http2Api Http2Raw.
Import ListNotations.
Local Open Scope N_scope.

(* C33.  A call never runs out of fuel (it terminates), never fails and never
   reports Finished. *)
Theorem C33_terminates : forall chk p h log s p' log' r,
  reachable chk p -> bytes s -> resume chk h p log s = (p', log', r) ->
  (exists n, r = ROk (SCallback n) /\ (n <= List.length s)%nat) \/
  r = ROk (SEos (List.length s)) \/
  (r = RFault FOverflow /\ chk = true).
Proof. exact h2_terminates. Qed.
Print Assumptions C33_terminates.

Example C33_case :
  let '(p, log, r) := resume true never new [] (render sample_data) in
  r = ROk (SCallback 9) /\
  (let '(_, _, r') := resume true yes p log (skipn 9 (render sample_data)) in r' = ROk (SEos 7)).
Proof. vm_compute. split; reflexivity. Qed.

(* C33.  The overflow check fails only in a frame whose length is too small for
   its fixed fields and padding. *)
Theorem C33_overflow_only_short : forall p h log s p' log' f,
  history true p log -> bytes s -> resume true h p log s = (p', log', RFault f) ->
  exists len t fl z, last_header log' = Some (len, t, fl) /\ z < 256 /\
    len < fixed_part t fl + (if has_pad t fl then 1 + z else 0).
Proof. exact h2_overflow. Qed.
Print Assumptions C33_overflow_only_short.

(* a DATA frame of length 3 whose pad length is 3 *)
Example C33_overflow_case :
  let '(_, log, r) := resume true yes new [] (render_header 3 0 8 false 1 ++ [3; 0; 0]) in
  r = RFault FOverflow /\ last_header log = Some (3, 0, 8) /\
  3 < fixed_part 0 8 + (if has_pad 0 8 then 1 + 3 else 0).
Proof. vm_compute. repeat split; reflexivity. Qed.

(* C34.  Two cuts of a stream of frames (the last of which may be incomplete),
   neither of them at a fragile place (cf. C35, C36). *)
Theorem C34_segmentation : forall fs u segs segs' chk chk' h h',
  Forall wf_frame fs -> List.concat segs ++ u = render_all fs ->
  List.concat segs' = List.concat segs -> safe_cuts fs segs -> safe_cuts fs segs' ->
  exists p log p' log',
    feed chk h new segs = (p, log, OEos) /\ feed chk' h' new segs' = (p', log', OEos) /\
    flat log = flat log' /\ same_place p p'.
Proof. exact h2_segments. Qed.
Print Assumptions C34_segmentation.

Example C34_case :
  Forall wf_frame sample_frames /\ List.concat sample_pieces = render_all sample_frames /\
  safe_cuts sample_frames sample_pieces /\ List.length sample_pieces = 18%nat.
Proof.
  split; [wf_frames|]. split; [reflexivity|]. split; [|reflexivity].
  apply safe_check. vm_compute. reflexivity.
Qed.

(* C37 *)
Theorem C37_frames_exact : forall fs v segs chk h,
  Forall wf_frame fs -> v < 256 -> List.concat segs = render_all fs ++ [v] -> safe_cuts fs segs ->
  exists p log q logq,
    feed chk h new segs = (p, log, OEos) /\ flat log = seen_all fs /\
    feed chk h new [[v]] = (q, logq, OEos) /\ flat logq = [] /\ same_place p q.
Proof. exact h2_frames. Qed.
Print Assumptions C37_frames_exact.

Example C37_case :
  Forall wf_frame sample_frames /\ safe_cuts sample_frames (sample_pieces ++ [[0]]) /\
  render sample_headers =
    [0; 0; 17; 1; 45; 18; 52; 86; 120] ++ [3] ++ [128; 1; 2; 3; 200] ++ bs "fragment" ++ [0; 0; 0] /\
  seen sample_headers =
    [FEv (EFrameFormat 17 1 45 305419896); FEv (EHeaders true 66051 200)] ++
    map (FByte KFragment) (bs "fragment") ++ [FEnd KFragment] /\
  seen sample_go_away =
    [FEv (EFrameFormat 13 7 0 0); FEv (EGoAway 2147483647 4027576335)] ++
    map (FByte KDebug) (bs "debug") ++ [FEnd KDebug].
Proof.
  split; [wf_frames|]. split; [apply safe_check; vm_compute; reflexivity|].
  repeat split; reflexivity.
Qed.

(* C38.  t, f: type and flags octet; s: payload; z: pad length, if any.  The
   fixed part and the padding fit into the payload. *)
Theorem C38_accounting : forall t f z k rsv sid s v segs chk h,
  t < 256 -> f < 256 -> sid < 2 ^ 31 -> data_kind t = Some k -> bytes s ->
  N.of_nat (List.length s) < 2 ^ 24 -> v < 256 ->
  (has_pad t f = true -> hd_error s = Some z) ->
  (if has_pad t f then 1 + z else 0) + fixed_part t f <= N.of_nat (List.length s) ->
  List.concat segs = render_header (N.of_nat (List.length s)) t f rsv sid ++ s ++ [v] ->
  (forall before after, segs = before ++ after ->
     ~ fragile_raw t (List.length (List.concat before))) ->
  exists p log q logq evs,
    feed chk h new segs = (p, log, OEos) /\ Forall plain evs /\
    flat log = evs ++ reported k t (data_part t f z s) /\
    feed chk h new [[v]] = (q, logq, OEos) /\ flat logq = [] /\ same_place p q.
Proof. exact h2_accounting. Qed.
Print Assumptions C38_accounting.

(* a padded HEADERS frame with priority, cut into three *)
Example C38_case :
  let s := [2; 0; 0; 0; 1; 7; 104; 105; 0; 0] in
  let segs := cut [9; 5]%nat (render_header 10 1 40 true 9 ++ s ++ [255]) in
  data_kind 1 = Some KFragment /\ has_pad 1 40 = true /\ hd_error s = Some 2 /\
  (if has_pad 1 40 then 1 + 2 else 0) + fixed_part 1 40 <= N.of_nat (List.length s) /\
  data_part 1 40 2 s = [104; 105] /\ List.length segs = 3%nat /\
  (forall before after, segs = before ++ after ->
     ~ fragile_raw 1 (List.length (List.concat before))).
Proof.
  cbv zeta. repeat split; try reflexivity; try discriminate.
  apply safe_check_raw. vm_compute. reflexivity.
Qed.

(* C41.  For every history of calls. *)
Theorem C41_identifiers : forall chk p log, history chk p log -> Forall id31 log.
Proof. exact h2_ids. Qed.
Print Assumptions C41_identifiers.

Example C41_case :
  let '(_, log, r) := resume true yes new [] (render sample_go_away) in
  r = ROk (SEos 22) /\
  log = [EFrameFormat 13 7 0 0; EGoAway 2147483647 4027576335; EData KDebug (bs "debug") true].
Proof. vm_compute. split; reflexivity. Qed.

(* C42, for frames that end with a byte of data or padding and frames that
   consist of fixed fields only; the other frames: see
   C42_late_data_callback_refuted. *)
Theorem C42_prompt : forall fs f segs chk h,
  Forall wf_frame fs -> wf_frame f -> prompt (f_body f) ->
  List.concat segs = render_all (fs ++ [f]) -> safe_cuts (fs ++ [f]) segs ->
  exists p log, feed chk h new segs = (p, log, OEos) /\ flat log = seen_all (fs ++ [f]) /\
    state p = StFrameLength1.
Proof. exact h2_prompt. Qed.
Print Assumptions C42_prompt.

Example C42_case : prompt (f_body sample_headers) /\ prompt (f_body sample_go_away) /\
  prompt (f_body sample_settings) /\ wf_frame sample_headers.
Proof.
  split; [left; discriminate|]. split; [exact I|]. split; [exact I|].
  assert (Forall wf_frame [sample_headers]) as H by wf_frames. now inversion H.
Qed.

(* C53.  byte_count() advances by the number of bytes consumed. *)
Theorem C53_byte_count : forall chk p h log s p' log' n,
  reachable chk p -> bytes s ->
  resume chk h p log s = (p', log', ROk (SCallback n)) \/
  resume chk h p log s = (p', log', ROk (SEos n)) ->
  byte_count p' = byte_count p + N.of_nat n.
Proof. exact h2_count. Qed.
Print Assumptions C53_byte_count.

Example C53_case :
  let '(p, _, r) := resume true never new [] (render sample_data) in
  r = ROk (SCallback 9) /\ byte_count p = 9.
Proof. vm_compute. split; reflexivity. Qed.
