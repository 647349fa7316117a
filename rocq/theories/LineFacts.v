(* Lines end in CR LF only. *)

From Coq Require Import NArith List Bool Arith String Lia.
From Verif Require Import Bytes ByteStream Http1Model Http1Base Http1Wp Http1Term Http1Spec Http1Sem
  Http1Sim Http1Step Http1Misc Http1Run Http1Client Http1Api Http1Protocol Http1Data Http1Wire Http1Round Http1Round2
  Http1Reads ValueSpec ValueLost ExtSpec ExtFacts FieldNameFacts.
Import ListNotations.
Local Open Scope N_scope.
Local Open Scope list_scope.

Lemma feed_head_fails h q segs l e rest : segs <> [] -> (forall e', same_kind e' e -> e' = e) ->
  rinv2 (init_head q) (hd [] segs) (List.concat (tl segs)) ->
  aexec Head None (fun _ => None) (A StStripDetect 0 0 0) [] (List.concat segs) = AFail l e rest ->
  exists p' log rest', feed h (init_head q) segs = (p', log, rest', OError e).
Proof.
  intros N U I R. unfold feed. rewrite (client_no_clen h) by (reflexivity || discriminate).
  edestruct (feed_fails (no_clen h) (fun _ => None) (init_head q) segs) as (p' & log & e' & Y & Z & P);
    [reflexivity|exact I|assumption|discriminate|exact R|].
  rewrite (U _ Z) in Y. unfold feed in Y. eauto.
Qed.

Lemma crlf_kind b e' : same_kind e' (ErCrlfSequence b) -> e' = ErCrlfSequence b.
Proof. intros K. destruct e'; cbn in K; try discriminate K. exact K. Qed.

(* What follows the fields of a request, or of a response. *)
Lemma request_then h q req before x e r segs :
  wf_request req -> render_request req = before ++ crlf ->
  hd 0 (q_method req) <> 72 \/ (9 <= List.length (strip (hd [] segs)))%nat ->
  (forall e', same_kind e' e -> e' = e) ->
  (forall l, exists l', aexec Head None (fun _ => None) (A StHeaderCr2 0 0 0) l x = AFail l' e r) ->
  List.concat segs = before ++ x ->
  exists p' log rest, feed h (init_head q) segs = (p', log, rest, OError e).
Proof.
  intros W Be Hm U X E.
  assert (Bf : before = q_blank req ++ q_method req ++ [32] ++ q_url req ++ [32] ++
                 render_version (q_version req) ++ crlf ++ flat_map render_header (q_headers req)).
  { apply (app_inv_tail crlf). rewrite <- Be. unfold render_request, render_headers.
    rewrite <- !app_assoc. reflexivity. }
  assert (NS : segs <> []).
  { intros ->. cbn in E. symmetry in E. apply app_eq_nil in E. destruct E as [E _]. rewrite Bf in E.
    apply app_eq_nil in E. destruct E as [_ E]. apply app_eq_nil in E. now destruct W as (_ & N & _). }
  destruct (request_fields None (fun _ => None) req x W) as [l L]. destruct (X l) as [l' L'].
  apply (feed_head_fails h q segs l' e r NS U).
  - constructor; try reflexivity; try discriminate.
    destruct Hm as [Hm|Hm]; [left|right; left; split; [reflexivity|assumption]].
    rewrite <- concat_hd. change (hok (strip (List.concat segs)) = true).
    rewrite E, Bf. rewrite <- !app_assoc. destruct W as (B & M1 & M2 & _).
    rewrite strip_blank by assumption. destruct (q_method req) as [|c m]; [congruence|].
    inversion M2 as [|? ? M3 M4]; subst. cbn [app strip].
    replace ((c =? 13) || (c =? 10) || (c =? 9) || (c =? 32)) with false.
    { cbn [hok hd] in *. apply N.eqb_neq in Hm. now rewrite Hm. }
    symmetry. rewrite !orb_false_iff, !N.eqb_neq. unfold byte in *. lia.
  - rewrite E, Bf. rewrite <- !app_assoc. etransitivity; [exact L|exact L'].
Qed.

Lemma response_then h q res before x e r segs :
  wf_response res -> render_response res = before ++ crlf ->
  (forall e', same_kind e' e -> e' = e) ->
  (forall l, exists l', aexec Head None (fun _ => None) (A StHeaderCr2 0 0 0) l x = AFail l' e r) ->
  List.concat segs = before ++ x ->
  exists p' log rest, feed h (init_head q) segs = (p', log, rest, OError e).
Proof.
  intros W Be U X E.
  assert (Bf : before = r_blank res ++ render_version (r_version res) ++ [32] ++ r_code res ++ [32] ++
                 r_reason res ++ crlf ++ flat_map render_header (r_headers res)).
  { apply (app_inv_tail crlf). rewrite <- Be. unfold render_response, render_headers.
    rewrite <- !app_assoc. reflexivity. }
  assert (NS : segs <> []).
  { intros ->. cbn in E. symmetry in E. apply app_eq_nil in E. destruct E as [E _]. rewrite Bf in E.
    apply app_eq_nil in E. destruct E as [_ E]. discriminate E. }
  destruct (response_fields None (fun _ => None) res x W) as [l L]. destruct (X l) as [l' L'].
  apply (feed_head_fails h q segs l' e r NS U).
  - constructor; try reflexivity; try discriminate. left.
    rewrite <- concat_hd. change (hok (strip (List.concat segs)) = true).
    rewrite E, Bf. rewrite <- !app_assoc. destruct W as (B & _).
    rewrite strip_blank by assumption. unfold render_version. rewrite <- app_assoc.
    match goal with |- hok (strip (_ ++ ?x)) = true => destruct x; reflexivity end.
  - rewrite E, Bf. rewrite <- !app_assoc. etransitivity; [exact L|exact L'].
Qed.

Section Lines.
  Variable clen : list fevent -> option N.
  Notation run := (aexec Head None clen).
  Notation HH lem := (lem Head None clen 0 0 0 head_keeps).

  Lemma hfail s b e l r : needs_byte s = true ->
    abyte_raw None (A s 0 0 0) b = AErr e -> run (A s 0 0 0) l (b :: r) = AFail l e r.
  Proof. intros N E. rewrite aexec_byte by exact N. unfold abyte. rewrite E. now rewrite app_nil_r. Qed.

  Lemma field_line n pad v b r : n <> [] -> Forall (fun c => tchar c = true) n -> padding pad -> taken v -> b <> 10 ->
    forall l, exists l', run (A StHeaderCr2 0 0 0) l (n ++ 58 :: pad ++ v ++ 13 :: b :: r) = AFail l' (ErCrlfSequence b) r.
  Proof.
    intros NE T P [V1 V2] B l. destruct n as [|c n]; [congruence|]. inversion T as [|? ? T1 T2]; subst.
    cbn [app]. rewrite (HH header_name_first) by auto.
    rewrite (HH name_bytes) by assumption.
    rewrite (HH keep StLowerHeaderName 58 [] StStripHeaderValue) by reflexivity.
    rewrite (HH pad_bytes) by exact P. rewrite (HH value_bytes) by assumption.
    rewrite (HH keep StHeaderValue 13 [] StHeaderLf1) by reflexivity.
    eexists. apply hfail; [reflexivity|]. cbn [abyte_raw a_st]. unfold a_expect. apply N.eqb_neq in B. now rewrite B.
  Qed.

  Lemma empty_line b r : b <> 10 ->
    forall l, exists l', run (A StHeaderCr2 0 0 0) l (13 :: b :: r) = AFail l' (ErCrlfSequence b) r.
  Proof.
    intros B l. rewrite (HH keep StHeaderCr2 13 [] StHeaderLf2) by reflexivity.
    eexists. apply hfail; [reflexivity|]. cbn [abyte_raw a_st]. unfold a_expect. apply N.eqb_neq in B. now rewrite B.
  Qed.
End Lines.

Lemma request_line_end h q req before n pad v b tail segs :
  wf_request req -> render_request req = before ++ crlf ->
  hd 0 (q_method req) <> 72 \/ (9 <= List.length (strip (hd [] segs)))%nat ->
  n <> [] -> Forall (fun c => tchar c = true) n -> padding pad -> taken v -> b <> 10 ->
  List.concat segs = before ++ n ++ 58 :: pad ++ v ++ 13 :: b :: tail ->
  exists p' log rest, feed h (init_head q) segs = (p', log, rest, OError (ErCrlfSequence b)).
Proof.
  intros W Be Hm NE T P V B. apply (request_then h q req before _ _ tail segs W Be Hm (crlf_kind b)).
  now apply field_line.
Qed.

Lemma response_line_end h q res before n pad v b tail segs :
  wf_response res -> render_response res = before ++ crlf ->
  n <> [] -> Forall (fun c => tchar c = true) n -> padding pad -> taken v -> b <> 10 ->
  List.concat segs = before ++ n ++ 58 :: pad ++ v ++ 13 :: b :: tail ->
  exists p' log rest, feed h (init_head q) segs = (p', log, rest, OError (ErCrlfSequence b)).
Proof.
  intros W Be NE T P V B. apply (response_then h q res before _ _ tail segs W Be (crlf_kind b)).
  now apply field_line.
Qed.

Lemma request_last_line h q req before b tail segs :
  wf_request req -> render_request req = before ++ crlf ->
  hd 0 (q_method req) <> 72 \/ (9 <= List.length (strip (hd [] segs)))%nat -> b <> 10 ->
  List.concat segs = before ++ 13 :: b :: tail ->
  exists p' log rest, feed h (init_head q) segs = (p', log, rest, OError (ErCrlfSequence b)).
Proof.
  intros W Be Hm B. apply (request_then h q req before _ _ tail segs W Be Hm (crlf_kind b)).
  now apply empty_line.
Qed.

Lemma response_last_line h q res before b tail segs :
  wf_response res -> render_response res = before ++ crlf -> b <> 10 ->
  List.concat segs = before ++ 13 :: b :: tail ->
  exists p' log rest, feed h (init_head q) segs = (p', log, rest, OError (ErCrlfSequence b)).
Proof.
  intros W Be B. apply (response_then h q res before _ _ tail segs W Be (crlf_kind b)).
  now apply empty_line.
Qed.

(* LF without CR *)
Lemma lf_stops v : taken v -> stops v 10.
Proof.
  intros [V1 V2]. apply stops_text; [exact V1|exact V2|reflexivity|reflexivity|discriminate].
Qed.

Lemma request_bare_lf h q req before n pad v tail segs :
  wf_request req -> render_request req = before ++ crlf ->
  hd 0 (q_method req) <> 72 \/ (9 <= List.length (strip (hd [] segs)))%nat ->
  n <> [] -> Forall (fun c => tchar c = true) n -> padding pad -> taken v ->
  forall e,
  List.concat segs = before ++ n ++ 58 :: pad ++ v ++ 10 :: tail /\ e = ErHeaderValue 10 \/
  List.concat segs = before ++ 10 :: tail /\ e = ErHeaderName 10 ->
  exists p' log rest, feed h (init_head q) segs = (p', log, rest, OError e).
Proof.
  intros W Be Hm NE T P V e [[E ->]|[E ->]].
  - destruct (request_value_lost h q req before n pad v 10 tail segs W Be Hm NE T P (lf_stops v V) E) as (p' & log & rest & F).
    exists p', log, rest. exact F.
  - destruct (request_name_lost h q req before [] 10 tail segs W Be Hm (Forall_nil _) eq_refl ltac:(discriminate) eq_refl) as (p' & log & rest & F);
      [intros _; repeat split; discriminate|exact E|].
    exists p', log, rest. exact F.
Qed.

Lemma response_bare_lf h q res before n pad v tail segs :
  wf_response res -> render_response res = before ++ crlf ->
  n <> [] -> Forall (fun c => tchar c = true) n -> padding pad -> taken v ->
  forall e,
  List.concat segs = before ++ n ++ 58 :: pad ++ v ++ 10 :: tail /\ e = ErHeaderValue 10 \/
  List.concat segs = before ++ 10 :: tail /\ e = ErHeaderName 10 ->
  exists p' log rest, feed h (init_head q) segs = (p', log, rest, OError e).
Proof.
  intros W Be NE T P V e [[E ->]|[E ->]].
  - destruct (response_value_lost h q res before n pad v 10 tail segs W Be NE T P (lf_stops v V) E) as (p' & log & rest & F).
    exists p', log, rest. exact F.
  - destruct (response_name_lost h q res before [] 10 tail segs W Be (Forall_nil _) eq_refl ltac:(discriminate) eq_refl) as (p' & log & rest & F);
      [intros _; repeat split; discriminate|exact E|].
    exists p', log, rest. exact F.
Qed.
