(* The first line of a message: what may follow its CR. *)

From Coq Require Import NArith List Bool Arith String Lia.
From Verif Require Import Bytes ByteStream Http1Model Http1Base Http1Wp Http1Term Http1Spec Http1Sem
  Http1Sim Http1Step Http1Misc Http1Run Http1Client Http1Api Http1Protocol Http1Data Http1Wire Http1Round Http1Round2
  LineFacts.
Import ListNotations.
Local Open Scope N_scope.
Local Open Scope list_scope.

Section First.
  Variable clen : list fevent -> option N.
  Notation run := (aexec Head None clen).

  Lemma request_cr q b r : wf_request q -> b <> 10 ->
    exists l, run (A StStripDetect 0 0 0) []
      (q_blank q ++ q_method q ++ [32] ++ q_url q ++ [32] ++ render_version (q_version q) ++ 13 :: b :: r) =
      AFail l (ErCrlfSequence b) r.
  Proof.
    intros (B & M1 & M2 & U1 & U2 & (V1 & V2 & V3 & V4) & Hs) N.
    unfold render_version.
    rewrite <- !app_assoc. cbn [app]. rewrite head_blank by assumption.
    rewrite method_bytes, url_bytes by assumption.
    change (bs "HTTP/") with [72; 84; 84; 80; 47]. cbn [app].
    rewrite (hkeep _ _ StRequestHttp1 72 [] StRequestHttp2) by reflexivity.
    rewrite (hkeep _ _ StRequestHttp2 84 [] StRequestHttp3) by reflexivity.
    rewrite (hkeep _ _ StRequestHttp3 84 [] StRequestHttp4) by reflexivity.
    rewrite (hkeep _ _ StRequestHttp4 80 [] StRequestHttp5) by reflexivity.
    rewrite (hkeep _ _ StRequestHttp5 47 [] StRequestVersionMajor1) by reflexivity.
    rewrite <- ?app_assoc. cbn [app].
    rewrite (version_digits _ _ _ _ 13 _ StRequestVersionMajor2 StRequestVersionMajor3 StRequestVersionPeriod StRequestVersionMinor1 StRequestVersionMinor2 StRequestVersionMinor3 StRequestVersionCr StInitialEnd) by (assumption || (left; repeat split)).
    rewrite (aexec_eps _ _ _ (A StInitialEnd 0 0 0) _ _ [FEv EInitialFinished] (A StInitialLf 0 0 0)) by reflexivity.
    eexists. apply (hfail clen); [reflexivity|]. cbn [abyte_raw a_st]. unfold a_expect. apply N.eqb_neq in N. now rewrite N.
  Qed.

  Lemma response_cr q b r : wf_response q -> b <> 10 ->
    exists l, run (A StStripDetect 0 0 0) []
      (r_blank q ++ render_version (r_version q) ++ [32] ++ r_code q ++ [32] ++ r_reason q ++ 13 :: b :: r) =
      AFail l (ErCrlfSequence b) r.
  Proof.
    intros (B & (V1 & V2 & V3 & V4) & C1 & C2 & R1 & R2 & Hs) N.
    unfold render_version.
    rewrite <- !app_assoc. cbn [app]. rewrite head_blank by assumption.
    change (bs "HTTP/") with [72; 84; 84; 80; 47]. cbn [app].
    rewrite (hkeep _ _ StStripDetect 72 [] StDetect2) by reflexivity.
    rewrite (hkeep _ _ StDetect2 84 [] StDetect3) by reflexivity.
    rewrite (hkeep _ _ StDetect3 84 [] StDetect4) by reflexivity.
    rewrite (hkeep _ _ StDetect4 80 [] StDetect5) by reflexivity.
    rewrite (hkeep _ _ StDetect5 47 [] StResponseVersionMajor1) by reflexivity.
    rewrite <- ?app_assoc. cbn [app].
    rewrite (version_digits _ _ _ _ 32 _ StResponseVersionMajor2 StResponseVersionMajor3 StResponseVersionPeriod StResponseVersionMinor1 StResponseVersionMinor2 StResponseVersionMinor3 StResponseVersionSpace StResponseStatusCode1) by (assumption || (right; repeat split)).
    rewrite <- ?app_assoc. cbn [app].
    rewrite code_bytes, reason_bytes by assumption.
    rewrite (aexec_eps _ _ _ (A StInitialEnd 0 0 0) _ _ [FEv EInitialFinished] (A StInitialLf 0 0 0)) by reflexivity.
    eexists. apply (hfail clen); [reflexivity|]. cbn [abyte_raw a_st]. unfold a_expect. apply N.eqb_neq in N. now rewrite N.
  Qed.
End First.

Lemma request_first_line h q req b tail segs :
  wf_request req ->
  hd 0 (q_method req) <> 72 \/ (9 <= List.length (strip (hd [] segs)))%nat -> b <> 10 ->
  List.concat segs = q_blank req ++ q_method req ++ [32] ++ q_url req ++ [32] ++ render_version (q_version req) ++ 13 :: b :: tail ->
  exists p' log rest, feed h (init_head q) segs = (p', log, rest, OError (ErCrlfSequence b)).
Proof.
  intros W Hm N E.
  assert (NS : segs <> []).
  { intros ->. cbn in E. symmetry in E.
    apply app_eq_nil in E. destruct E as [_ E]. apply app_eq_nil in E. now destruct W as (_ & M & _). }
  destruct (request_cr (fun _ => None) req b tail W N) as [l L].
  apply (feed_head_fails h q segs l _ tail NS (crlf_kind b)).
  - constructor; try reflexivity; try discriminate.
    destruct Hm as [Hm|Hm]; [left|right; left; split; [reflexivity|assumption]].
    rewrite <- concat_hd. change (hok (strip (List.concat segs)) = true).
    rewrite E. destruct W as (B & M1 & M2 & _).
    rewrite strip_blank by assumption. destruct (q_method req) as [|c m]; [congruence|].
    inversion M2 as [|? ? M3 M4]; subst. cbn [app strip].
    replace ((c =? 13) || (c =? 10) || (c =? 9) || (c =? 32)) with false.
    { cbn [hok hd] in *. apply N.eqb_neq in Hm. now rewrite Hm. }
    symmetry. rewrite !orb_false_iff, !N.eqb_neq. unfold byte in *. lia.
  - rewrite E. exact L.
Qed.

Lemma response_first_line h q res b tail segs :
  wf_response res -> b <> 10 ->
  List.concat segs = r_blank res ++ render_version (r_version res) ++ [32] ++ r_code res ++ [32] ++ r_reason res ++ 13 :: b :: tail ->
  exists p' log rest, feed h (init_head q) segs = (p', log, rest, OError (ErCrlfSequence b)).
Proof.
  intros W N E.
  assert (NS : segs <> []).
  { intros ->. cbn in E. symmetry in E. apply app_eq_nil in E. destruct E as [_ E]. discriminate E. }
  destruct (response_cr (fun _ => None) res b tail W N) as [l L].
  apply (feed_head_fails h q segs l _ tail NS (crlf_kind b)).
  - constructor; try reflexivity; try discriminate. left.
    rewrite <- concat_hd. change (hok (strip (List.concat segs)) = true).
    rewrite E. destruct W as (B & _).
    rewrite strip_blank by assumption. unfold render_version. rewrite <- app_assoc.
    match goal with |- hok (strip (_ ++ ?x)) = true => destruct x; reflexivity end.
  - rewrite E. exact L.
Qed.
