(* Which values of fields are taken. *)

From Coq Require Import NArith List Bool Arith String Lia.
From Verif Require Import Bytes Http1Model Http1Spec Http1Protocol Http1Wire Http1Round ValueSpec ValueLost ValueWhich.
Import ListNotations.
Local Open Scope N_scope.

Lemma taken_or v : taken v \/ ~ taken v.
Proof.
  unfold taken. destruct (field_text_ok Plain v); [|right; intros [_ X]; discriminate].
  destruct v as [|b v]; [right; intros [[] _]|]. cbn [starts_visible].
  destruct (visible_byte b); [left; auto|right; intros [X _]; discriminate].
Qed.

Lemma value_fate v : field_value v -> Forall (fun b => b <> 255) v -> ~ taken v ->
  exists v1 b v2, v ++ [13] = v1 ++ b :: v2 /\ stops v1 b.
Proof. intros V X N. destruct (which v V X) as [T|S]; [now destruct N|exact S]. Qed.

Lemma line_cut v v1 (b : byte) v2 tail : v ++ [13] = v1 ++ b :: v2 ->
  v ++ crlf ++ crlf ++ tail = v1 ++ b :: v2 ++ [10; 13; 10] ++ tail.
Proof.
  intros E. unfold crlf. change (v ++ [13; 10] ++ [13; 10] ++ tail) with (v ++ [13] ++ [10; 13; 10] ++ tail).
  rewrite app_assoc, E. rewrite <- app_assoc. reflexivity.
Qed.

Lemma request_value h q req n pad v tail segs :
  wf_request req -> n <> [] -> Forall (fun c => tchar c = true) n -> padding pad ->
  field_value v -> Forall (fun b => b <> 255) v ->
  hd 0 (q_method req) <> 72 \/ (9 <= List.length (strip (hd [] segs)))%nat ->
  List.concat segs = render_request (add_field req (Header n pad v [])) ++ tail ->
  exists p' log rest o, feed h (init_head q) segs = (p', log, rest, o) /\
    (taken v /\ o = OFinished /\ rest = tail /\ flat log = seen_request (add_field req (Header n pad v [])) \/
     ~ taken v /\ exists b, o = OError (ErHeaderValue b)).
Proof.
  intros W NE T P V X Hm E. destruct (taken_or v) as [K|K].
  - destruct (request_round h q (add_field req (Header n pad v [])) tail segs) as (p' & log & F & L); try assumption.
    + destruct W as (W1 & W2 & W3 & W4 & W5 & W6 & W7).
      unfold wf_request, add_field. cbn [q_blank q_method q_url q_version q_headers]. repeat (split; [assumption|]).
      apply Forall_app. split; [assumption|]. constructor; [|constructor].
      unfold wf_header. cbn [h_name h_pad h_value h_folds]. destruct K as [K1 K2]. repeat (split; [assumption|]). constructor.
    + exists p', log, tail, OFinished. split; [exact F|]. left. auto.
  - destruct (value_fate v V X K) as (v1 & b & v2 & E1 & S).
    assert (RR : exists before, render_request req = before ++ crlf /\
       render_request (add_field req (Header n pad v [])) ++ tail =
       before ++ n ++ 58 :: pad ++ v ++ crlf ++ crlf ++ tail).
    { exists (q_blank req ++ q_method req ++ [32] ++ q_url req ++ [32] ++
              render_version (q_version req) ++ crlf ++ flat_map render_header (q_headers req)).
      unfold render_request, render_headers, add_field. cbn [q_blank q_method q_url q_version q_headers].
      rewrite flat_map_app. cbn [flat_map]. rewrite !app_nil_r. change (render_header (Header n pad v [])) with (n ++ [58] ++ pad ++ v ++ [] ++ crlf).
      split; [now rewrite <- !app_assoc|]. repeat (rewrite <- !app_assoc; cbn [app]). reflexivity. }
    destruct RR as (before & R1 & R2).
    destruct (request_value_lost h q req before n pad v1 b (v2 ++ [10; 13; 10] ++ tail) segs) as (p' & log & rest & F);
      try assumption.
    + rewrite E, R2. pose proof (line_cut v v1 b v2 tail E1) as Y.
      do 2 f_equal. change (pad ++ v ++ crlf ++ crlf ++ tail) with (pad ++ (v ++ crlf ++ crlf ++ tail)).
      do 2 f_equal. exact Y.
    + exists p', log, rest, (OError (ErHeaderValue b)). split; [exact F|]. right. eauto.
Qed.

Lemma response_value h q res n pad v tail segs :
  wf_response res -> n <> [] -> Forall (fun c => tchar c = true) n -> padding pad ->
  field_value v -> Forall (fun b => b <> 255) v ->
  List.concat segs = render_response (add_answer_field res (Header n pad v [])) ++ tail ->
  exists p' log rest o, feed h (init_head q) segs = (p', log, rest, o) /\
    (taken v /\ o = OFinished /\ rest = tail /\ flat log = seen_response (add_answer_field res (Header n pad v [])) \/
     ~ taken v /\ exists b, o = OError (ErHeaderValue b)).
Proof.
  intros W NE T P V X E. destruct (taken_or v) as [K|K].
  - destruct (response_round h q (add_answer_field res (Header n pad v [])) tail segs) as (p' & log & F & L); try assumption.
    + destruct W as (W1 & W2 & W3 & W4 & W5 & W6 & W7).
      unfold wf_response, add_answer_field. cbn [r_blank r_version r_code r_reason r_headers]. repeat (split; [assumption|]).
      apply Forall_app. split; [assumption|]. constructor; [|constructor].
      unfold wf_header. cbn [h_name h_pad h_value h_folds]. destruct K as [K1 K2]. repeat (split; [assumption|]). constructor.
    + exists p', log, tail, OFinished. split; [exact F|]. left. auto.
  - destruct (value_fate v V X K) as (v1 & b & v2 & E1 & S).
    assert (RR : exists before, render_response res = before ++ crlf /\
       render_response (add_answer_field res (Header n pad v [])) ++ tail =
       before ++ n ++ 58 :: pad ++ v ++ crlf ++ crlf ++ tail).
    { exists (r_blank res ++ render_version (r_version res) ++ [32] ++ r_code res ++ [32] ++
              r_reason res ++ crlf ++ flat_map render_header (r_headers res)).
      unfold render_response, render_headers, add_answer_field. cbn [r_blank r_version r_code r_reason r_headers].
      rewrite flat_map_app. cbn [flat_map]. rewrite !app_nil_r. change (render_header (Header n pad v [])) with (n ++ [58] ++ pad ++ v ++ [] ++ crlf).
      split; [now rewrite <- !app_assoc|]. repeat (rewrite <- !app_assoc; cbn [app]). reflexivity. }
    destruct RR as (before & R1 & R2).
    destruct (response_value_lost h q res before n pad v1 b (v2 ++ [10; 13; 10] ++ tail) segs) as (p' & log & rest & F);
      try assumption.
    + rewrite E, R2. pose proof (line_cut v v1 b v2 tail E1) as Y.
      do 2 f_equal. change (pad ++ v ++ crlf ++ crlf ++ tail) with (pad ++ (v ++ crlf ++ crlf ++ tail)).
      do 2 f_equal. exact Y.
    + exists p', log, rest, (OError (ErHeaderValue b)). split; [exact F|]. right. eauto.
Qed.

(* White space behind a value is reported with it. *)
Lemma space_text w : padding w -> field_text_ok Plain w = true.
Proof. induction 1 as [|b w [-> | ->] F IH]; [reflexivity|exact IH|exact IH]. Qed.

Lemma taken_space v w : taken v -> padding w -> taken (v ++ w).
Proof.
  intros [A B] P. split; [destruct v; [contradiction|exact A]|]. rewrite (text_then _ _ _ B). now apply space_text.
Qed.

Lemma request_space h q req n pad v w tail segs :
  wf_request req -> n <> [] -> Forall (fun c => tchar c = true) n -> padding pad -> taken v -> padding w ->
  hd 0 (q_method req) <> 72 \/ (9 <= List.length (strip (hd [] segs)))%nat ->
  List.concat segs = render_request (add_field req (Header n pad (v ++ w) [])) ++ tail ->
  exists p' log, feed h (init_head q) segs = (p', log, tail, OFinished) /\
    flat log = seen_request (add_field req (Header n pad (v ++ w) [])).
Proof.
  intros W NE T P K S Hm E. apply request_round; try assumption.
  destruct W as (W1 & W2 & W3 & W4 & W5 & W6 & W7).
  unfold wf_request, add_field. cbn [q_blank q_method q_url q_version q_headers]. repeat (split; [assumption|]).
  apply Forall_app. split; [assumption|]. constructor; [|constructor].
  unfold wf_header. cbn [h_name h_pad h_value h_folds]. destruct (taken_space v w K S) as [K1 K2].
  repeat (split; [assumption|]). constructor.
Qed.
