(* Fields with an empty name are accepted, their values reported. *)

From Coq Require Import NArith List Bool Arith String Lia.
From Verif Require Import Bytes ByteStream Http1Model Http1Base Http1Wp Http1Term Http1Spec Http1Sem
  Http1Sim Http1Step Http1Misc Http1Run Http1Client Http1Api Http1Protocol Http1Data Http1Wire Http1Round
  ValueSpec ValueLost.
Import ListNotations.
Local Open Scope N_scope.
Local Open Scope list_scope.

Section Nameless.
  Variables (bd : option (list byte)) (clen : list fevent -> option N).
  Notation run := (aexec Head bd clen).
  Notation HH lem := (lem Head bd clen 0 0 0 head_keeps).

  Lemma nameless_bytes pad v l r : padding pad -> starts_visible v -> field_text_ok Plain v = true ->
    run (A StHeaderCr2 0 0 0) l (58 :: pad ++ v ++ crlf ++ r) =
    run (A StHeaderCr2 0 0 0) (l ++ map (FByte KHeaderValue) v) r.
  Proof.
    intros P V T.
    rewrite (HH keep StHeaderCr2 58 [] StStripHeaderValue) by reflexivity.
    rewrite app_nil_r, (HH pad_bytes) by exact P. rewrite (HH value_bytes) by assumption.
    unfold crlf. cbn [app].
    rewrite (HH keep StHeaderValue 13 [] StHeaderLf1) by reflexivity.
    rewrite (HH keep StHeaderLf1 10 [] StHeaderCr2) by reflexivity.
    now rewrite !app_nil_r.
  Qed.

  Lemma request_start q : wf_request q ->
    exists l, forall r, run (A StStripDetect 0 0 0) []
      (q_blank q ++ q_method q ++ [32] ++ q_url q ++ [32] ++ render_version (q_version q) ++ crlf ++
       flat_map render_header (q_headers q) ++ r) = run (A StHeaderCr2 0 0 0) l r.
  Proof.
    intros (B & M1 & M2 & U1 & U2 & (V1 & V2 & V3 & V4) & Hs). eexists. intros r.
    unfold render_version, crlf.
    rewrite <- !app_assoc. cbn [app]. rewrite head_blank by assumption.
    rewrite method_bytes, url_bytes by assumption.
    change (bs "HTTP/") with [72; 84; 84; 80; 47]. cbn [app].
    rewrite (hkeep _ _ StRequestHttp1 72 [] StRequestHttp2) by reflexivity.
    rewrite (hkeep _ _ StRequestHttp2 84 [] StRequestHttp3) by reflexivity.
    rewrite (hkeep _ _ StRequestHttp3 84 [] StRequestHttp4) by reflexivity.
    rewrite (hkeep _ _ StRequestHttp4 80 [] StRequestHttp5) by reflexivity.
    rewrite (hkeep _ _ StRequestHttp5 47 [] StRequestVersionMajor1) by reflexivity.
    rewrite <- ?app_assoc. cbn [app].
    rewrite (version_digits _ _ _ _ 13 _ StRequestVersionMajor2 StRequestVersionMajor3 StRequestVersionPeriod StRequestVersionMinor1 StRequestVersionMinor2 StRequestVersionMinor3 StRequestVersionCr StInitialEnd) by (assumption || (left; repeat split)).
    rewrite (aexec_eps _ _ _ (A StInitialEnd 0 0 0) _ _ [FEv EInitialFinished] (A StInitialLf 0 0 0)) by reflexivity.
    rewrite (hkeep _ _ StInitialLf 10 [] StHeaderCr2) by reflexivity.
    rewrite fields_bytes by assumption. reflexivity.
  Qed.

  Lemma head_end l r :
    run (A StHeaderCr2 0 0 0) l (crlf ++ r) = ADone (l ++ [FEv EHeadersFinished]) (A StFinished 0 0 0) r.
  Proof.
    unfold crlf. cbn [app].
    rewrite (HH keep StHeaderCr2 13 [] StHeaderLf2) by reflexivity.
    rewrite (HH keep StHeaderLf2 10 [] StHeaderEnd) by reflexivity. rewrite !app_nil_r.
    rewrite (aexec_eps _ _ _ (A StHeaderEnd 0 0 0) _ _ [FEv EHeadersFinished] (A StFinished 0 0 0)) by reflexivity.
    now rewrite aexec_finished by reflexivity.
  Qed.

  Lemma nameless_exec q pad v fs r : wf_request q -> padding pad -> starts_visible v -> field_text_ok Plain v = true ->
    Forall wf_header fs ->
    run (A StStripDetect 0 0 0) []
      (render_request (Request (q_blank q) (q_method q) (q_url q) (q_version q) (q_headers q ++ Header [] pad v [] :: fs)) ++ r) =
    ADone (seen_request (Request (q_blank q) (q_method q) (q_url q) (q_version q) (q_headers q ++ Header [] pad v [] :: fs)))
          (A StFinished 0 0 0) r.
  Proof.
    intros W P V T F. destruct (request_start q W) as [l L].
    assert (S : l ++ [FEv EHeadersFinished] = seen_request q).
    { pose proof (L crlf) as X. rewrite <- (app_nil_r crlf) in X at 2. rewrite <- (app_nil_r crlf) in X at 3.
      rewrite head_end in X.
      pose proof (request_exec bd clen q [] W) as Y. rewrite app_nil_r in Y.
      assert (Z : render_request q = q_blank q ++ q_method q ++ [32] ++ q_url q ++ [32] ++ render_version (q_version q) ++ crlf ++
       flat_map render_header (q_headers q) ++ crlf).
      { unfold render_request, render_headers. reflexivity. }
      rewrite <- (app_nil_r crlf) in Z at 2. rewrite Z in Y. rewrite X in Y. now injection Y. }
    unfold render_request, render_headers. cbn [q_blank q_method q_url q_version q_headers].
    rewrite flat_map_app. cbn [flat_map].
    change (render_header (Header [] pad v [])) with ([] ++ [58] ++ pad ++ v ++ [] ++ crlf).
    repeat (rewrite <- !app_assoc; cbn [app]).
    etransitivity; [apply (L (58 :: pad ++ v ++ crlf ++ flat_map render_header fs ++ crlf ++ r))|].
    rewrite nameless_bytes by assumption. rewrite fields_bytes by assumption. rewrite head_end. f_equal.
    apply (app_inv_tail []). rewrite !app_nil_r.
    unfold seen_request, seen_headers in *. cbn [q_blank q_method q_url q_version q_headers].
    rewrite flat_map_app. cbn [flat_map].
    change (seen_header (Header [] pad v [])) with ([] ++ map (FByte KHeaderValue) (v ++ [])).
    rewrite app_nil_r. cbn [app].
    rewrite !app_assoc in S. apply app_inj_tail in S. destruct S as [-> _].
    repeat (rewrite <- !app_assoc; cbn [app]). reflexivity.
  Qed.
End Nameless.

Lemma nameless_taken h q req pad v fs tail segs :
  wf_request req -> padding pad -> taken v -> Forall wf_header fs ->
  hd 0 (q_method req) <> 72 \/ (9 <= List.length (strip (hd [] segs)))%nat ->
  List.concat segs = render_request (Request (q_blank req) (q_method req) (q_url req) (q_version req) (q_headers req ++ Header [] pad v [] :: fs)) ++ tail ->
  exists p' log, feed h (init_head q) segs = (p', log, tail, OFinished) /\
    flat log = seen_request (Request (q_blank req) (q_method req) (q_url req) (q_version req) (q_headers req ++ Header [] pad v [] :: fs)).
Proof.
  intros W P [V T] F Hm E.
  assert (NE : segs <> []).
  { intros ->. cbn in E. symmetry in E. apply app_eq_nil in E. destruct E as [E _].
    unfold render_request in E. cbn [q_blank q_method] in E. apply app_eq_nil in E. destruct E as [_ E].
    apply app_eq_nil in E. now destruct W as (_ & N & _). }
  unfold feed. rewrite (client_no_clen h) by (reflexivity || discriminate).
  edestruct (feed_exact (no_clen h) (fun _ => None) (init_head q) segs) as (p' & log & G & L & _);
    [reflexivity| |assumption|discriminate| | |].
  - constructor; try reflexivity; try discriminate.
    destruct Hm as [Hm|Hm]; [left|right; left; split; [reflexivity|assumption]].
    rewrite <- concat_hd, E.
    match goal with |- context [render_request ?x] => change (hok (strip (render_request x ++ tail)) = true) end.
    unfold render_request. cbn [q_blank q_method q_url q_version q_headers]. rewrite <- !app_assoc. destruct W as (B & M1 & M2 & _).
    rewrite strip_blank by assumption. destruct (q_method req) as [|b m]; [congruence|].
    inversion M2 as [|? ? M3 M4]; subst. cbn [app strip].
    replace ((b =? 13) || (b =? 10) || (b =? 9) || (b =? 32)) with false.
    { cbn [hok hd] in *. apply N.eqb_neq in Hm. now rewrite Hm. }
    symmetry. rewrite !orb_false_iff, !N.eqb_neq. unfold byte in *. lia.
  - rewrite E. apply (nameless_exec None (fun _ => None)); assumption.
  - reflexivity.
  - unfold feed in G. eauto.
Qed.
