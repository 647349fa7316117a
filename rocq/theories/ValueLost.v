(* Fields without a value are not accepted. *)

From Coq Require Import NArith List Bool Arith String Lia.
From Verif Require Import Bytes ByteStream Http1Model Http1Base Http1Wp Http1Term Http1Spec Http1Sem
  Http1Sim Http1Step Http1Misc Http1Run Http1Client Http1Api Http1Protocol Http1Data Http1Wire Http1Round ValueSpec.
Import ListNotations.
Local Open Scope N_scope.

Lemma feed_wrong h clen p segs l b rest :
  (forall l, h_clen h l = clen (flat l)) ->
  rinv2 p (hd [] segs) (List.concat (tl segs)) -> segs <> [] -> state_fn p <> StDetect1 ->
  rsem clen p [] (List.concat segs) = AFail l (ErHeaderValue b) rest ->
  exists p' log rest', feed h p segs = (p', log, rest', OError (ErHeaderValue b)).
Proof.
  intros Hc I N D R.
  destruct (feed h p segs) as [[[p' log] rest'] o] eqn:E.
  assert (NF : o <> OFuel).
  { pose proof (feed_ends h p segs (ri2_state _ _ _ I)) as X. rewrite E in X. exact X. }
  unfold feed in E.
  destruct (client_sim h clen Hc _ _ _ _ _ _ _ _ I (or_intror N) (fun X => match D X with end) E) as [P _].
  unfold client_post in P. cbn [flat flat_map] in P. rewrite R in P.
  destruct o.
  - destruct P as (P & _). discriminate.
  - destruct P as (P & _). discriminate.
  - destruct P as (L & e' & R' & [= <- <- <-] & K & _). exists p', log, rest'.
    destruct e; cbn [same_kind] in K; try discriminate K. now rewrite K.
  - destruct P as (? & P & _). discriminate.
  - congruence.
Qed.

Lemma lookup_false t (P : byte -> bool) :
  forallb (fun i => implb (P (N.of_nat i)) (match lookup t (N.of_nat i) with Some false => true | _ => false end))
          (seq 0 255) = true ->
  forall b, b < 255 -> P b = true -> lookup t b = Some false.
Proof.
  intros H b L E. rewrite forallb_forall in H. specialize (H (N.to_nat b)).
  rewrite N2Nat.id, E in H. cbn [implb] in H.
  destruct (lookup t b) as [[]|]; try reflexivity; exfalso;
    (assert (false = true) by (apply H, in_seq; lia); discriminate).
Qed.

Lemma no_field b : field_byte b = false -> b < 255 -> is_header_field b = Some false.
Proof.
  intros H L. apply (lookup_false _ (fun b => negb (field_byte b))); [vm_compute; reflexivity|exact L|now rewrite H].
Qed.

Lemma no_quoted b : field_byte b = false -> b < 255 -> is_quoted_header_field b = Some false.
Proof.
  intros H L. apply (lookup_false _ (fun b => negb (field_byte b))); [vm_compute; reflexivity|exact L|now rewrite H].
Qed.

Lemma not_34 b : field_byte b = false -> (b =? 34) = false /\ (b =? 92) = false.
Proof.
  intros H. split; apply N.eqb_neq; intros ->; discriminate H.
Qed.

Section Lost.
  Variables (bd : option (list byte)) (clen : list fevent -> option N).
  Notation run := (aexec Head bd clen).
  Notation HH lem := (lem Head bd clen 0 0 0 head_keeps).

  Lemma fields_bytes fs : forall l r, Forall wf_header fs ->
    run (A StHeaderCr2 0 0 0) l (flat_map render_header fs ++ r) =
    run (A StHeaderCr2 0 0 0) (l ++ flat_map seen_header fs) r.
  Proof.
    induction fs as [|f fs IH]; intros l r F; cbn [flat_map app]; [now rewrite app_nil_r|].
    inversion F; subst. rewrite <- app_assoc. rewrite (HH header_bytes) by assumption.
    rewrite IH by assumption. now rewrite <- app_assoc.
  Qed.

  Lemma quoted_more w : quoted w -> forall l r,
    run (A StHeaderQuotedValue 0 0 0) l (w ++ r) =
    run (A StHeaderQuotedValue 0 0 0) (l ++ map (FByte KHeaderValue) w) r.
  Proof.
    induction 1 as [|w c Q IH F1 F2 F3|w c Q IH F]; intros l r.
    - cbn [app map]. now rewrite app_nil_r.
    - rewrite <- app_assoc, IH. cbn [app].
      rewrite (HH keep StHeaderQuotedValue c [FByte KHeaderValue c] StHeaderQuotedValue) by
        (try reflexivity; cbn [abyte_raw a_st]; unfold a_quoted, by_table; now rewrite field_byte_quoted).
      now rewrite map_app, <- app_assoc.
    - rewrite <- app_assoc, IH. cbn [app].
      rewrite (HH keep StHeaderQuotedValue 92 [FByte KHeaderValue 92] StHeaderEscapedValue) by reflexivity.
      rewrite (HH keep StHeaderEscapedValue c [FByte KHeaderValue c] StHeaderQuotedValue).
      + rewrite map_app, <- !app_assoc. reflexivity.
      + reflexivity.
      + reflexivity.
      + reflexivity.
      + cbn [abyte_raw a_st]. unfold a_escaped. replace (is_escapable c) with true; [reflexivity|].
        symmetry. unfold is_escapable. rewrite !andb_true_iff, ?N.ltb_lt, ?N.leb_le. unfold byte in *. lia.
  Qed.

  Lemma open_quote v w l r : starts_visible (v ++ [34]) -> field_text_ok Plain v = true -> quoted w ->
    exists l', run (A StStripHeaderValue 0 0 0) l (v ++ 34 :: w ++ r) = run (A StHeaderQuotedValue 0 0 0) l' r.
  Proof.
    intros V T Q. destruct v as [|x v].
    - cbn [app]. rewrite (HH keep StStripHeaderValue 34 [FByte KHeaderValue 34] StHeaderQuotedValue) by reflexivity.
      rewrite quoted_more by assumption. eexists. reflexivity.
    - rewrite (HH value_bytes) by assumption.
      rewrite (HH keep StHeaderValue 34 [FByte KHeaderValue 34] StHeaderQuotedValue) by reflexivity.
      rewrite quoted_more by assumption. eexists. reflexivity.
  Qed.

  Lemma lost_text v b l r : stops v b ->
    exists l', run (A StStripHeaderValue 0 0 0) l (v ++ b :: r) = AFail l' (ErHeaderValue b) r.
  Proof.
    intros [c V X Y|v' w c V T Q C L|v' w c V T Q C|v' c V T C L D].
    - cbn [app]. rewrite aexec_byte by reflexivity. unfold abyte. cbn [abyte_raw a_st]. unfold a_strip.
      apply N.eqb_neq in X. apply N.eqb_neq in Y. rewrite X, Y. cbn [orb].
      change (is_visible_7bit c = false) in V. rewrite V. eexists. reflexivity.
    - destruct (open_quote v' w l (c :: r) V T Q) as [l1 E]. rewrite <- app_assoc.
      change ((34 :: w) ++ c :: r) with (34 :: w ++ c :: r).
      eexists. etransitivity; [exact E|].
      rewrite aexec_byte by reflexivity. unfold abyte. cbn [abyte_raw a_st]. unfold a_quoted, by_table.
      rewrite no_quoted by assumption. destruct (not_34 _ C) as [-> ->]. reflexivity.
    - destruct (open_quote v' w l (92 :: c :: r) V T Q) as [l1 E]. rewrite <- app_assoc.
      change ((34 :: w ++ [92]) ++ c :: r) with (34 :: (w ++ [92]) ++ c :: r).
      rewrite <- (app_assoc w). cbn [app].
      eexists. etransitivity; [exact E|].
      rewrite (HH keep StHeaderQuotedValue 92 [FByte KHeaderValue 92] StHeaderEscapedValue) by reflexivity.
      rewrite aexec_byte by reflexivity. unfold abyte. cbn [abyte_raw a_st]. unfold a_escaped.
      replace (is_escapable c) with false; [reflexivity|]. symmetry. apply not_true_is_false. unfold is_escapable.
      rewrite !andb_true_iff, ?N.ltb_lt, ?N.leb_le. unfold byte in *. lia.
    - rewrite (HH value_bytes) by assumption.
      rewrite aexec_byte by reflexivity. unfold abyte. cbn [abyte_raw a_st]. unfold a_value, by_table.
      rewrite no_field by assumption. apply N.eqb_neq in D. rewrite D.
      destruct (not_34 _ C) as [-> _]. eexists. reflexivity.
  Qed.

  Lemma lost_value n pad v b l r :
    n <> [] -> Forall (fun c => tchar c = true) n -> padding pad -> stops v b ->
    exists l', run (A StHeaderCr2 0 0 0) l (n ++ 58 :: pad ++ v ++ b :: r) = AFail l' (ErHeaderValue b) r.
  Proof.
    intros NE T P S. destruct n as [|c n]; [congruence|]. inversion T as [|? ? T1 T2]; subst.
    cbn [app]. rewrite (HH header_name_first) by auto.
    rewrite (HH name_bytes) by assumption.
    rewrite (HH keep StLowerHeaderName 58 [] StStripHeaderValue) by reflexivity.
    rewrite (HH pad_bytes) by exact P. now apply lost_text.
  Qed.

  Lemma request_fields q r : wf_request q ->
    exists l, run (A StStripDetect 0 0 0) []
      (q_blank q ++ q_method q ++ [32] ++ q_url q ++ [32] ++ render_version (q_version q) ++ crlf ++
       flat_map render_header (q_headers q) ++ r) = run (A StHeaderCr2 0 0 0) l r.
  Proof.
    intros (B & M1 & M2 & U1 & U2 & (V1 & V2 & V3 & V4) & Hs).
    unfold render_version, crlf.
    rewrite <- !app_assoc. cbn [app]. rewrite head_blank by assumption.
    rewrite method_bytes, url_bytes by assumption.
    change (bs "HTTP/") with [72; 84; 84; 80; 47]. cbn [app].
    rewrite (hkeep _ _ StRequestHttp1 72 [] StRequestHttp2) by reflexivity.
    rewrite (hkeep _ _ StRequestHttp2 84 [] StRequestHttp3) by reflexivity.
    rewrite (hkeep _ _ StRequestHttp3 84 [] StRequestHttp4) by reflexivity.
    rewrite (hkeep _ _ StRequestHttp4 80 [] StRequestHttp5) by reflexivity.
    rewrite (hkeep _ _ StRequestHttp5 47 [] StRequestVersionMajor1) by reflexivity.
    rewrite <- ?app_assoc. cbn [app].
    rewrite (version_digits _ _ _ _ 13 _ StRequestVersionMajor2 StRequestVersionMajor3 StRequestVersionPeriod StRequestVersionMinor1 StRequestVersionMinor2 StRequestVersionMinor3 StRequestVersionCr StInitialEnd) by (assumption || (left; repeat split)).
    rewrite (aexec_eps _ _ _ (A StInitialEnd 0 0 0) _ _ [FEv EInitialFinished] (A StInitialLf 0 0 0)) by reflexivity.
    rewrite (hkeep _ _ StInitialLf 10 [] StHeaderCr2) by reflexivity.
    rewrite fields_bytes by assumption. eexists. reflexivity.
  Qed.

  Lemma response_fields q r : wf_response q ->
    exists l, run (A StStripDetect 0 0 0) []
      (r_blank q ++ render_version (r_version q) ++ [32] ++ r_code q ++ [32] ++ r_reason q ++ crlf ++
       flat_map render_header (r_headers q) ++ r) = run (A StHeaderCr2 0 0 0) l r.
  Proof.
    intros (B & (V1 & V2 & V3 & V4) & C1 & C2 & R1 & R2 & Hs).
    unfold render_version, crlf.
    rewrite <- !app_assoc. cbn [app]. rewrite head_blank by assumption.
    change (bs "HTTP/") with [72; 84; 84; 80; 47]. cbn [app].
    rewrite (hkeep _ _ StStripDetect 72 [] StDetect2) by reflexivity.
    rewrite (hkeep _ _ StDetect2 84 [] StDetect3) by reflexivity.
    rewrite (hkeep _ _ StDetect3 84 [] StDetect4) by reflexivity.
    rewrite (hkeep _ _ StDetect4 80 [] StDetect5) by reflexivity.
    rewrite (hkeep _ _ StDetect5 47 [] StResponseVersionMajor1) by reflexivity.
    rewrite <- ?app_assoc. cbn [app].
    rewrite (version_digits _ _ _ _ 32 _ StResponseVersionMajor2 StResponseVersionMajor3 StResponseVersionPeriod StResponseVersionMinor1 StResponseVersionMinor2 StResponseVersionMinor3 StResponseVersionSpace StResponseStatusCode1) by (assumption || (right; repeat split)).
    rewrite <- ?app_assoc. cbn [app].
    rewrite code_bytes, reason_bytes by assumption.
    rewrite (aexec_eps _ _ _ (A StInitialEnd 0 0 0) _ _ [FEv EInitialFinished] (A StInitialLf 0 0 0)) by reflexivity.
    rewrite (hkeep _ _ StInitialLf 10 [] StHeaderCr2) by reflexivity.
    rewrite fields_bytes by assumption. eexists. reflexivity.
  Qed.
End Lost.

Lemma request_value_lost h q req before n pad v b tail segs :
  wf_request req -> render_request req = before ++ crlf ->
  hd 0 (q_method req) <> 72 \/ (9 <= List.length (strip (hd [] segs)))%nat ->
  n <> [] -> Forall (fun c => tchar c = true) n -> padding pad ->
  stops v b ->
  List.concat segs = before ++ n ++ 58 :: pad ++ v ++ b :: tail ->
  exists p' log rest, feed h (init_head q) segs = (p', log, rest, OError (ErHeaderValue b)).
Proof.
  intros W Be Hm NE T P S E.
  assert (NS : segs <> []).
  { intros ->. cbn in E. symmetry in E. apply app_eq_nil in E. destruct E as [_ E].
    apply app_eq_nil in E. now destruct E. }
  assert (Bf : before = q_blank req ++ q_method req ++ [32] ++ q_url req ++ [32] ++
                 render_version (q_version req) ++ crlf ++ flat_map render_header (q_headers req)).
  { apply (app_inv_tail crlf). rewrite <- Be. unfold render_request, render_headers.
    rewrite <- !app_assoc. reflexivity. }
  unfold feed. rewrite (client_no_clen h) by (reflexivity || discriminate).
  destruct (request_fields None (fun _ => None) req (n ++ 58 :: pad ++ v ++ b :: tail) W) as [l L].
  destruct (lost_value None (fun _ => None) n pad v b l tail NE T P S) as [l' L'].
  edestruct (feed_wrong (no_clen h) (fun _ => None) (init_head q) segs l' b tail) as (p' & log & rest & F);
    [reflexivity| |assumption|discriminate| |].
  - constructor; try reflexivity; try discriminate.
    destruct Hm as [Hm|Hm]; [left|right; left; split; [reflexivity|assumption]].
    rewrite <- concat_hd. change (hok (strip (List.concat segs)) = true).
    rewrite E, Bf. rewrite <- !app_assoc. destruct W as (B & M1 & M2 & _).
    rewrite strip_blank by assumption. destruct (q_method req) as [|c m]; [congruence|].
    inversion M2 as [|? ? M3 M4]; subst. cbn [app strip].
    replace ((c =? 13) || (c =? 10) || (c =? 9) || (c =? 32)) with false.
    { cbn [hok hd] in *. apply N.eqb_neq in Hm. now rewrite Hm. }
    symmetry. rewrite !orb_false_iff, !N.eqb_neq. unfold byte in *. lia.
  - rewrite E, Bf. rewrite <- !app_assoc. etransitivity; [exact L|exact L'].
  - unfold feed in F. eauto.
Qed.

Lemma response_value_lost h q res before n pad v b tail segs :
  wf_response res -> render_response res = before ++ crlf ->
  n <> [] -> Forall (fun c => tchar c = true) n -> padding pad ->
  stops v b ->
  List.concat segs = before ++ n ++ 58 :: pad ++ v ++ b :: tail ->
  exists p' log rest, feed h (init_head q) segs = (p', log, rest, OError (ErHeaderValue b)).
Proof.
  intros W Be NE T P S E.
  assert (NS : segs <> []).
  { intros ->. cbn in E. symmetry in E. apply app_eq_nil in E. destruct E as [_ E].
    apply app_eq_nil in E. now destruct E. }
  assert (Bf : before = r_blank res ++ render_version (r_version res) ++ [32] ++ r_code res ++ [32] ++
                 r_reason res ++ crlf ++ flat_map render_header (r_headers res)).
  { apply (app_inv_tail crlf). rewrite <- Be. unfold render_response, render_headers.
    rewrite <- !app_assoc. reflexivity. }
  unfold feed. rewrite (client_no_clen h) by (reflexivity || discriminate).
  destruct (response_fields None (fun _ => None) res (n ++ 58 :: pad ++ v ++ b :: tail) W) as [l L].
  destruct (lost_value None (fun _ => None) n pad v b l tail NE T P S) as [l' L'].
  edestruct (feed_wrong (no_clen h) (fun _ => None) (init_head q) segs l' b tail) as (p' & log & rest & F);
    [reflexivity| |assumption|discriminate| |].
  - constructor; try reflexivity; try discriminate. left.
    rewrite <- concat_hd. change (hok (strip (List.concat segs)) = true).
    rewrite E, Bf. rewrite <- !app_assoc. destruct W as (B & _).
    rewrite strip_blank by assumption. unfold render_version. rewrite <- app_assoc.
    match goal with |- hok (strip (_ ++ ?x)) = true => destruct x; reflexivity end.
  - rewrite E, Bf. rewrite <- !app_assoc. etransitivity; [exact L|exact L'].
  - unfold feed in F. eauto.
Qed.
