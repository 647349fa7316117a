(* Witnesses for the properties the HTTP/2 parser does not have. *)

From Coq Require Import NArith List Bool Arith String Lia.
From Verif Require Import Bytes ByteStream Http2Model Http2Spec Http2Wp Http2Term Http2Run Http2Samples.
Import ListNotations.
Local Open Scope N_scope.

Lemma stream_id_cut : exists f s1 s2,
  wf_frame f /\ s1 ++ s2 = render f /\
  (let '(_, log, o) := feed true yes new [s1 ++ s2] in
   o = OEos /\ last_header log <> None /\ flat log = seen f) /\
  (let '(_, log, o) := feed true yes new [s1; s2] in
   o = OEos /\ hd_error log = Some (EFrameFormat 6 4 0 515) /\ f_stream f = 66051).
Proof.
  exists (Frame 0 false 66051 (BSettings 4 65535)).
  exists [0; 0; 6; 4; 0; 0], [1; 2; 3; 0; 4; 0; 0; 255; 255].
  split; [|split; [reflexivity|split]].
  - assert (Forall wf_frame [Frame 0 false 66051 (BSettings 4 65535)]) as H by wf_frames.
    now inversion H.
  - vm_compute. split; [reflexivity|split; [discriminate|reflexivity]].
  - vm_compute. repeat split.
Qed.

(* States the parser never leaves. *)
Definition trap (s : pstate) : Prop := s = StGoAwayStreamId3 \/ s = StSettingsValue3.

Lemma run_fn_trap chk h m : trap (state_fn (mp m)) ->
  wp (run_fn chk h m) (fun m' o =>
    match o with Continue | Exit (SEos _) => trap (state_fn (mp m')) /\ ml m' = ml m | _ => False end).
Proof.
  destruct m as [p [cb mk sl r] l]. unfold trap. cbn [mp].
  intros [E|E]; unfold run_fn; cbn [mp]; rewrite E; unfold_state.
  all: wp_all.
  all: cbn [mp ml p_set_state p_32b state_fn]; auto.
Qed.

Lemma loop_trap chk h n m m' o : loop chk h n m m' o -> trap (state_fn (mp m)) ->
  match o with Exit (SEos _) => trap (state_fn (mp m')) /\ ml m' = ml m | _ => False end.
Proof.
  intros L. induction L as [m m' o R N|n m m1 m' o R L IH]; intros T.
  - pose proof (wp_run _ _ (run_fn_trap chk h m T) _ _ R) as P. cbn beta in P.
    destruct o as [|[k|k|k]|e|f]; tauto.
  - pose proof (wp_run _ _ (run_fn_trap chk h m T) _ _ R) as [P1 P2]. cbn beta in *.
    specialize (IH P1). destruct o as [|[k|k|k]|e|f]; try tauto. rewrite P2 in IH. exact IH.
Qed.

Lemma client_trap chk h : forall fuel segs p log, trap (state_fn p) ->
  (List.length segs <= fuel)%nat ->
  exists p', client fuel chk h p log segs = (p', log, OEos) /\ trap (state_fn p').
Proof.
  induction fuel as [|fuel IH]; intros [|seg more] p log T L.
  - exists p. auto.
  - cbn in L. lia.
  - exists p. auto.
  - cbn [client]. destruct (resume chk h p log seg) as [[p1 l1] r] eqn:E.
    destruct (resume_loop _ _ _ _ _ _ _ _ E) as (k & m' & o & LL & _ & -> & -> & -> & NF).
    pose proof (loop_trap _ _ _ _ _ _ LL T) as P.
    destruct o as [|[n|n|n]|e|f]; try contradiction. destruct P as [P1 P2].
    cbn [finish fst snd mp ml with_p add_count state_fn] in *. rewrite P2.
    apply IH; [exact P1|]. cbn in L. lia.
Qed.

Lemma client_more chk h p0 log0 s1 p1 log1 n segs fuel :
  resume chk h p0 log0 s1 = (p1, log1, ROk (SEos n)) -> trap (state_fn p1) ->
  (List.length segs <= fuel)%nat ->
  exists p', client (S fuel) chk h p0 log0 (s1 :: segs) = (p', log1, OEos).
Proof.
  intros E T L. cbn [client]. rewrite E. destruct (client_trap chk h fuel segs p1 log1 T L) as (p' & C & _).
  now exists p'.
Qed.

Lemma calls_length segs : (List.length segs <= calls segs)%nat.
Proof. induction segs as [|s segs IH]; cbn [List.length calls]; lia. Qed.

Lemma stuck s1 segs log n p :
  resume true yes new [] s1 = (p, log, ROk (SEos n)) -> trap (state_fn p) ->
  exists p', feed true yes new (s1 :: segs) = (p', log, OEos).
Proof.
  intros E T. unfold feed.
  assert (exists k, calls (s1 :: segs) = S k /\ (List.length segs <= k)%nat) as (k & -> & L).
  { pose proof (calls_length segs). exists (4 * List.length s1 + 4 + calls segs)%nat.
    cbn [calls]. split; lia. }
  eapply client_more; eassumption.
Qed.

Lemma go_away_stuck : exists f s1 s2,
  wf_frame f /\ s1 ++ s2 = render f /\
  (let '(_, log, o) := feed true yes new [s1 ++ s2] in o = OEos /\ flat log = seen f) /\
  forall segs, exists p, feed true yes new (s1 :: segs) = (p, [EFrameFormat 8 7 0 0], OEos).
Proof.
  set (f := Frame 0 false 0 (BGoAway false 1 0 [])).
  exists f, (firstn 12 (render f)), (skipn 12 (render f)).
  split; [|split; [apply firstn_skipn|split]].
  - assert (Forall wf_frame [f]) as H by (unfold f; wf_frames). now inversion H.
  - vm_compute. split; reflexivity.
  - intros segs. eapply stuck.
    + vm_compute. reflexivity.
    + left. reflexivity.
Qed.

Lemma settings_stuck : exists f s1 s2,
  wf_frame f /\ s1 ++ s2 = render f /\
  (let '(_, log, o) := feed true yes new [s1 ++ s2] in o = OEos /\ flat log = seen f) /\
  forall segs, exists p, feed true yes new (s1 :: segs) = (p, [EFrameFormat 6 4 0 0], OEos).
Proof.
  set (f := Frame 0 false 0 (BSettings 4 65535)).
  exists f, (firstn 14 (render f)), (skipn 14 (render f)).
  split; [|split; [apply firstn_skipn|split]].
  - assert (Forall wf_frame [f]) as H by (unfold f; wf_frames). now inversion H.
  - vm_compute. split; reflexivity.
  - intros segs. eapply stuck.
    + vm_compute. reflexivity.
    + right. reflexivity.
Qed.

(* over-long padding *)
Lemma long_padding : exists s,
  bytes s /\ hd_error s = Some 3 /\ List.length s = 3%nat /\
  snd (feed true yes new [render_header 3 0 8 false 1 ++ s]) = OFault FOverflow /\
  (let '(_, log, o) := feed false yes new [render_header 3 0 8 false 1 ++ s ++ render_all sample_frames] in
   o = OEos /\ flat log = FEv (EFrameFormat 3 0 8 1) :: map (FByte KData) (tl s ++ render_all sample_frames)).
Proof.
  exists [3; 0; 0]. split; [repeat constructor|]. vm_compute. repeat split; reflexivity.
Qed.

(* SETTINGS without or with two settings, followed by a DATA frame *)
Lemma settings_size :
  (let '(_, log, o) := feed true yes new [render_header 0 4 1 false 0 ++ render sample_data] in
   o = OEos /\ hd_error log = Some (EFrameFormat 0 4 1 0) /\ (exists v, In (ESettings 0 v) log) /\
   ~ In (EData KData (bs "data") true) log) /\
  (let '(_, log, o) := feed true yes new
     [render_header 12 4 0 false 0 ++ (be16 4 ++ be32 65535) ++ (be16 3 ++ be32 100) ++
      render sample_data] in
   o = OEos /\ hd_error log = Some (EFrameFormat 12 4 0 0) /\ In (ESettings 4 65535) log /\
   ~ In (ESettings 3 100) log /\ ~ In (EData KData (bs "data") true) log).
Proof.
  vm_compute. split.
  - split; [reflexivity|]. split; [reflexivity|]. split; [exists 117442816; auto|].
    intros H. repeat destruct H as [H|H]; try discriminate; exact H.
  - split; [reflexivity|]. split; [reflexivity|]. split; [auto|].
    split; intros H; repeat destruct H as [H|H]; try discriminate; exact H.
Qed.

(* reserved bits *)
Lemma reserved_bits :
  (exists f v, wf_frame f /\ type_of (f_body f) = 5 /\ 2 ^ 31 <= v /\
    (let '(_, log, o) := feed true yes new [render f] in o = OEos /\ In (EPushPromise v) log)) /\
  (exists f v, wf_frame f /\ type_of (f_body f) = 8 /\ 2 ^ 31 <= v /\
    (let '(_, log, o) := feed true yes new [render f] in o = OEos /\ In (EWindowUpdate v) log)).
Proof.
  split.
  - exists (Frame 0 false 1 (BPushPromise None true 2 [1])), 2147483650. split.
    + assert (Forall wf_frame [Frame 0 false 1 (BPushPromise None true 2 [1])]) as H by wf_frames.
      now inversion H.
    + split; [reflexivity|]. split; [discriminate|]. vm_compute. split; [reflexivity|auto].
  - exists (Frame 0 false 1 (BWindowUpdate true 7)), 2147483655. split.
    + assert (Forall wf_frame [Frame 0 false 1 (BWindowUpdate true 7)]) as H by wf_frames.
      now inversion H.
    + split; [reflexivity|]. split; [discriminate|]. vm_compute. split; [reflexivity|auto].
Qed.

(* late callbacks *)
Lemma late_callback : exists f, wf_frame f /\
  (let '(_, log, o) := feed true yes new [render f] in o = OEos /\ ~ In (FEnd KData) (flat log)) /\
  (forall v, v < 256 ->
   let '(_, log, o) := feed true yes new [render f; [v]] in o = OEos /\ flat log = seen f).
Proof.
  exists sample_empty. split; [|split].
  - assert (Forall wf_frame [sample_empty]) as H by wf_frames. now inversion H.
  - vm_compute. split; [reflexivity|]. intros H. repeat destruct H as [H|H]; try discriminate; exact H.
  - intros v V. vm_compute. split; reflexivity.
Qed.
