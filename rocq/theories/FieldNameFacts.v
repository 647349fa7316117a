(* What may follow the name of a header field. *)

From Coq Require Import NArith List Bool Arith String Lia.
From Verif Require Import Bytes ByteStream Http1Model Http1Base Http1Wp Http1Term Http1Spec Http1Sem
  Http1Sim Http1Step Http1Misc Http1Run Http1Client Http1Api Http1Protocol Http1Data Http1Wire Http1Round Http1Round2
  Http1Reads ValueSpec ValueLost.
Import ListNotations.
Local Open Scope N_scope.
Local Open Scope list_scope.

Section Name.
  Variables (bd : option (list byte)) (clen : list fevent -> option N).
  Notation run := (aexec Head bd clen).
  Notation HH lem := (lem Head bd clen 0 0 0 head_keeps).

  Lemma no_token b : tchar b = false -> b < 255 -> is_token b = Some false.
  Proof.
    intros T L. rewrite token_eq, T. replace (255 <=? b) with false by (symmetry; apply N.leb_gt; exact L). reflexivity.
  Qed.

  Lemma lost_name n b l r :
    Forall (fun c => tchar c = true) n -> tchar b = false -> b <> 58 -> b < 255 ->
    (n = [] -> b <> 13 /\ b <> 32 /\ b <> 9) ->
    exists l', run (A StHeaderCr2 0 0 0) l (n ++ b :: r) = AFail l' (ErHeaderName b) r.
  Proof.
    intros T B1 B2 B3 N. pose proof (no_token b B1 B3) as K. apply N.eqb_neq in B2.
    destruct n as [|c n].
    - destruct (N eq_refl) as (N1 & N2 & N3). apply N.eqb_neq in N1, N2, N3. exists l. cbn [app].
      rewrite aexec_byte by reflexivity. unfold abyte. cbn [abyte_raw a_st].
      unfold a_check_name, a_first_name, a_lower_name, by_table. rewrite N1, N2, N3, K, B2. cbn [orb].
      destruct (is_visible_7bit b); now rewrite app_nil_r.
    - inversion T as [|? ? T1 T2]; subst.
      cbn [app]. rewrite (HH header_name_first) by auto.
      rewrite (HH name_bytes) by assumption.
      rewrite aexec_byte by reflexivity. unfold abyte. cbn [abyte_raw a_st].
      unfold a_lower_name, by_table. rewrite K, B2. eexists. reflexivity.
  Qed.
End Name.

Lemma feed_head_wrong h q segs l b rest : segs <> [] ->
  rinv2 (init_head q) (hd [] segs) (List.concat (tl segs)) ->
  aexec Head None (fun _ => None) (A StStripDetect 0 0 0) [] (List.concat segs) = AFail l (ErHeaderName b) rest ->
  exists p' log rest', feed h (init_head q) segs = (p', log, rest', OError (ErHeaderName b)).
Proof.
  intros N I R. unfold feed. rewrite (client_no_clen h) by (reflexivity || discriminate).
  edestruct (feed_fails (no_clen h) (fun _ => None) (init_head q) segs) as (p' & log & e' & Y & Z & P);
    [reflexivity|exact I|assumption|discriminate|exact R|].
  destruct e'; cbn in Z; try discriminate Z. rewrite Z in Y. unfold feed in Y. eauto.
Qed.

Lemma request_name_lost h q req before n b tail segs :
  wf_request req -> render_request req = before ++ crlf ->
  hd 0 (q_method req) <> 72 \/ (9 <= List.length (strip (hd [] segs)))%nat ->
  Forall (fun c => tchar c = true) n -> tchar b = false -> b <> 58 -> b < 255 ->
  (n = [] -> b <> 13 /\ b <> 32 /\ b <> 9) ->
  List.concat segs = before ++ n ++ b :: tail ->
  exists p' log rest, feed h (init_head q) segs = (p', log, rest, OError (ErHeaderName b)).
Proof.
  intros W Be Hm T B1 B2 B3 N E.
  assert (NS : segs <> []).
  { intros ->. cbn in E. symmetry in E. apply app_eq_nil in E. destruct E as [_ E].
    apply app_eq_nil in E. now destruct E. }
  assert (Bf : before = q_blank req ++ q_method req ++ [32] ++ q_url req ++ [32] ++
                 render_version (q_version req) ++ crlf ++ flat_map render_header (q_headers req)).
  { apply (app_inv_tail crlf). rewrite <- Be. unfold render_request, render_headers.
    rewrite <- !app_assoc. reflexivity. }
  destruct (request_fields None (fun _ => None) req (n ++ b :: tail) W) as [l L].
  destruct (lost_name None (fun _ => None) n b l tail T B1 B2 B3 N) as [l' L'].
  apply (feed_head_wrong h q segs l' b tail NS).
  - constructor; try reflexivity; try discriminate.
    destruct Hm as [Hm|Hm]; [left|right; left; split; [reflexivity|assumption]].
    rewrite <- concat_hd. change (hok (strip (List.concat segs)) = true).
    rewrite E, Bf. rewrite <- !app_assoc. destruct W as (B & M1 & M2 & _).
    rewrite strip_blank by assumption. destruct (q_method req) as [|c m]; [congruence|].
    inversion M2 as [|? ? M3 M4]; subst. cbn [app strip].
    replace ((c =? 13) || (c =? 10) || (c =? 9) || (c =? 32)) with false.
    { cbn [hok hd] in *. apply N.eqb_neq in Hm. now rewrite Hm. }
    symmetry. rewrite !orb_false_iff, !N.eqb_neq. unfold byte in *. lia.
  - rewrite E, Bf. rewrite <- !app_assoc. etransitivity; [exact L|exact L'].
Qed.

Lemma response_name_lost h q res before n b tail segs :
  wf_response res -> render_response res = before ++ crlf ->
  Forall (fun c => tchar c = true) n -> tchar b = false -> b <> 58 -> b < 255 ->
  (n = [] -> b <> 13 /\ b <> 32 /\ b <> 9) ->
  List.concat segs = before ++ n ++ b :: tail ->
  exists p' log rest, feed h (init_head q) segs = (p', log, rest, OError (ErHeaderName b)).
Proof.
  intros W Be T B1 B2 B3 N E.
  assert (NS : segs <> []).
  { intros ->. cbn in E. symmetry in E. apply app_eq_nil in E. destruct E as [_ E].
    apply app_eq_nil in E. now destruct E. }
  assert (Bf : before = r_blank res ++ render_version (r_version res) ++ [32] ++ r_code res ++ [32] ++
                 r_reason res ++ crlf ++ flat_map render_header (r_headers res)).
  { apply (app_inv_tail crlf). rewrite <- Be. unfold render_response, render_headers.
    rewrite <- !app_assoc. reflexivity. }
  destruct (response_fields None (fun _ => None) res (n ++ b :: tail) W) as [l L].
  destruct (lost_name None (fun _ => None) n b l tail T B1 B2 B3 N) as [l' L'].
  apply (feed_head_wrong h q segs l' b tail NS).
  - constructor; try reflexivity; try discriminate. left.
    rewrite <- concat_hd. change (hok (strip (List.concat segs)) = true).
    rewrite E, Bf. rewrite <- !app_assoc. destruct W as (B & _).
    rewrite strip_blank by assumption. unfold render_version. rewrite <- app_assoc.
    match goal with |- hok (strip (_ ++ ?x)) = true => destruct x; reflexivity end.
  - rewrite E, Bf. rewrite <- !app_assoc. etransitivity; [exact L|exact L'].
Qed.
