(* What may follow the name of a field in trailers and in parts. *)

From Coq Require Import NArith List Bool Arith String Lia.
From Verif Require Import Bytes ByteStream Http1Model Http1Base Http1Wp Http1Term Http1Spec Http1Sem
  Http1Sim Http1Step Http1Misc Http1Run Http1Client Http1Api Http1Protocol Http1Data Http1Wire Http1Round Http1Round2
  Http1Reads FieldNameFacts.
Import ListNotations.
Local Open Scope N_scope.
Local Open Scope list_scope.

Section Name.
  Variables (t : ptype) (bd : option (list byte)) (clen : list fevent -> option N) (lo up len : N).
  Hypothesis K : forall s, uses_lo s = false -> uses_up s = false -> nrm t (A s lo up len) = A s lo up len.
  Notation run s := (aexec t bd clen (A s lo up len)).
  Notation HH lem := (lem t bd clen lo up len K).

  Lemma more_fields fs : forall l r, Forall wf_header fs ->
    run StHeaderCr2 l (flat_map render_header fs ++ r) = run StHeaderCr2 (l ++ flat_map seen_header fs) r.
  Proof.
    induction fs as [|f fs IH]; intros l r F; cbn [flat_map app]; [now rewrite app_nil_r|].
    inversion F; subst. rewrite <- app_assoc. rewrite (HH header_bytes) by assumption.
    rewrite IH by assumption. now rewrite <- app_assoc.
  Qed.

  Lemma wrong_name n b l r :
    Forall (fun c => tchar c = true) n -> tchar b = false -> b <> 58 -> b < 255 ->
    (n = [] -> b <> 13 /\ b <> 32 /\ b <> 9) ->
    exists l', run StHeaderCr2 l (n ++ b :: r) = AFail l' (ErHeaderName b) r.
  Proof.
    intros T B1 B2 B3 N. pose proof (no_token b B1 B3) as Z. apply N.eqb_neq in B2.
    destruct n as [|c n].
    - destruct (N eq_refl) as (N1 & N2 & N3). apply N.eqb_neq in N1, N2, N3. exists l. cbn [app].
      rewrite aexec_byte by reflexivity. unfold abyte. cbn [abyte_raw a_st].
      unfold a_check_name, a_first_name, a_lower_name, by_table. rewrite N1, N2, N3, Z, B2. cbn [orb].
      destruct (is_visible_7bit b); now rewrite app_nil_r.
    - inversion T as [|? ? T1 T2]; subst.
      cbn [app]. rewrite (HH header_name_first) by auto.
      rewrite (HH name_bytes) by assumption.
      rewrite aexec_byte by reflexivity. unfold abyte. cbn [abyte_raw a_st].
      unfold a_lower_name, by_table. rewrite Z, B2. eexists. reflexivity.
  Qed.
End Name.

Lemma trailer_name_lost h q cs fs n b tail segs :
  Forall wf_chunk cs -> Forall wf_header fs ->
  Forall (fun c => tchar c = true) n -> tchar b = false -> b <> 58 -> b < 255 ->
  (n = [] -> b <> 13 /\ b <> 32 /\ b <> 9) ->
  List.concat segs = flat_map render_chunk cs ++ [48] ++ crlf ++ flat_map render_header fs ++ n ++ b :: tail ->
  exists p' log rest, feed h (init_chunked q) segs = (p', log, rest, OError (ErHeaderName b)).
Proof.
  intros F G T B1 B2 B3 N E.
  assert (NS : segs <> []).
  { intros ->. cbn in E. symmetry in E. apply app_eq_nil in E. destruct E as [_ E]. discriminate E. }
  edestruct (wrong_name Chunked None (fun _ => None) 0 0 0 (chunk_keeps 0) n b) as [l L]; [eassumption..|].
  unfold feed. rewrite (client_no_clen h) by (reflexivity || discriminate).
  edestruct (feed_fails (no_clen h) (fun _ => None) (init_chunked q) segs) as (p' & log & e' & Y & Z & P);
    [reflexivity| |assumption|discriminate| |].
  - constructor; try reflexivity; try discriminate. left; reflexivity.
  - rewrite E. etransitivity; [apply (chunks_bytes (fun _ => None)); assumption|]. unfold crlf. cbn [app].
    rewrite (ckeep _ 0 StChunkLength1 48 [FEv EChunkBegin] StChunkLengthCr) by reflexivity.
    rewrite (ckeep _ 0 StChunkLengthCr 13 [FEv (EChunkLength 0)] StHeaderLf1) by reflexivity.
    rewrite (ckeep _ 0 StHeaderLf1 10 [] StHeaderCr2) by reflexivity.
    rewrite (more_fields Chunked None (fun _ => None) 0 0 0 (chunk_keeps 0)) by assumption. exact L.
  - destruct e'; cbn in Z; try discriminate Z. rewrite Z in Y. unfold feed in Y. eauto.
Qed.

Lemma part_name_lost h clen q bd ps fs n b tail segs :
  (forall l, h_clen h l = clen (flat l)) ->
  ~ In 13 bd -> N.of_nat (List.length bd) <= 2 ^ 14 ->
  Forall wf_part ps -> answers clen [] ps -> Forall wf_header fs ->
  Forall (fun c => tchar c = true) n -> tchar b = false -> b <> 58 -> b < 255 ->
  (n = [] -> b <> 13 /\ b <> 32 /\ b <> 9) ->
  List.concat segs = bs "--" ++ bd ++ flat_map (render_part bd) ps ++ crlf ++ flat_map render_header fs ++ n ++ b :: tail ->
  exists p' log rest, feed h (set_boundary (init_multipart q) bd) segs = (p', log, rest, OError (ErHeaderName b)).
Proof.
  intros Hc C B F Q G T B1 B2 B3 N E.
  assert (NS : segs <> []) by (intros ->; discriminate).
  destruct (parts_bytes clen bd ps 1 0 [] (crlf ++ flat_map render_header fs ++ n ++ b :: tail) ltac:(discriminate) F Q) as (lo & len & X).
  edestruct (wrong_name Multipart (Some bd) clen lo 0 len (fun _ _ _ => eq_refl) n b) as [l L]; [eassumption..|].
  edestruct (feed_fails h clen (set_boundary (init_multipart q) bd) segs) as (p' & log & e' & Y & Z & P);
    [exact Hc| |assumption|discriminate| |].
  - constructor; try reflexivity; try discriminate; [left; reflexivity|]. intros _. now split.
  - rewrite E.
    etransitivity; [apply (boundary_bytes clen bd 1 0 []); now destruct (flat_map (render_part bd) ps)|].
    rewrite X. cbn [app]. unfold crlf. cbn [app].
    rewrite (mkeep clen bd lo 0 len StMultipartBoundaryCr 13 [FEv EMultipartBegin] StInitialLf) by reflexivity.
    rewrite (mkeep clen bd lo 0 len StInitialLf 10 [] StHeaderCr2) by reflexivity.
    rewrite (more_fields Multipart (Some bd) clen lo 0 len (fun _ _ _ => eq_refl)) by assumption. exact L.
  - destruct e'; cbn in Z; try discriminate Z. rewrite Z in Y. eauto.
Qed.
