(* Lines and data of chunks end in CR LF only. *)

From Coq Require Import NArith List Bool Arith String Lia.
From Verif Require Import Bytes ByteStream Http1Model Http1Base Http1Wp Http1Term Http1Spec Http1Sem
  Http1Sim Http1Step Http1Misc Http1Run Http1Client Http1Api Http1Protocol Http1Data Http1Wire Http1Round Http1Round2
  ExtSpec ExtFacts LineFacts.
Import ListNotations.
Local Open Scope N_scope.
Local Open Scope list_scope.

Section Chunk.
  Variable clen : list fevent -> option N.
  Notation run := (aexec Chunked None clen).

  Lemma chunk_line s xs d : wf_chunk (Chunk s xs d) -> forall l r, exists l',
    run (A StChunkLength1 0 0 0) l (s ++ flat_map render_ext xs ++ 13 :: r) =
    run (A StChunkLengthLf 0 0 (N.of_nat (List.length d))) l' r.
  Proof.
    intros (L & H1 & H2 & H3 & H4) l r. cbn [c_size c_exts c_data] in *.
    destruct s as [|b sz]; [cbn in L; lia|]. cbn [hd List.length] in *.
    inversion H1 as [|? ? H5 H6]; subst.
    unfold hexadecimal in H3. cbn [fold_left] in H3. rewrite N.mul_0_r, N.add_0_l in H3.
    assert (NZ : hexval b <> 0).
    { unfold hexdigit, hexval, byte in *. destruct (N.leb_spec b 57), (N.leb_spec b 70); lia. }
    cbn [app]. rewrite aexec_byte by reflexivity.
    assert (E : abyte Chunked None (A StChunkLength1 0 0 0) b = AGo [FEv EChunkBegin] (A (size_state 0) 0 0 (hexval b))).
    { unfold abyte. cbn [abyte_raw a_st]. apply N.eqb_neq in H2.
      rewrite H2, hexdigit_is, hexdigit_to_byte by assumption. reflexivity. }
    rewrite E. rewrite size_more; [|lia|assumption|pose proof (hexval_small _ H5); change (16 ^ N.of_nat (0 + 1)) with 16; lia].
    rewrite H3. set (n := N.of_nat (List.length d)) in *.
    assert (Dn : n <> 0). { pose proof (fold_ge sz (hexval b)). lia. }
    rewrite (exts_bytes clen n xs _ [FEv (EChunkLength n)]) by (apply size_sep || idtac; assumption).
    rewrite (aexec_eps _ _ _ (A StChunkExtensionsFinished 0 0 n) _ _ [FEv EChunkExtsFinished] (A StChunkLengthLf 0 0 n)) by reflexivity.
    eexists. reflexivity.
  Qed.

  Lemma data_end s xs d x z b : wf_chunk (Chunk s xs d) -> crlf = x ++ z -> z <> [] -> Some b <> nth_error z 0 ->
    forall l r, exists l',
    run (A StChunkLength1 0 0 0) l (s ++ flat_map render_ext xs ++ crlf ++ d ++ x ++ b :: r) =
    AFail l' (ErCrlfSequence b) r.
  Proof.
    intros W E N NE l r. unfold crlf at 1. cbn [app].
    destruct (chunk_line s xs d W l (10 :: d ++ x ++ b :: r)) as [l1 L1].
    enough (Y : exists l', run (A StChunkLengthLf 0 0 (N.of_nat (List.length d))) l1 (10 :: d ++ x ++ b :: r) = AFail l' (ErCrlfSequence b) r).
    { destruct Y as [l' Y]. exists l'. etransitivity; [exact L1|exact Y]. }
    set (n := N.of_nat (List.length d)).
    rewrite (ckeep clen n StChunkLengthLf 10 [] StChunkData) by reflexivity.
    rewrite (aexec_length_le clen Chunked None KChunkData StChunkData StChunkDataCr 0 0);
      [|reflexivity|intros; unfold abyte; cbn [abyte_raw a_st]; unfold a_by_length; cbn [a_len]..| | |].
    - subst n. rewrite Nat2N.id.
      rewrite firstn_app, firstn_all, Nat.sub_diag, firstn_O, app_nil_r.
      rewrite skipn_app, skipn_all, Nat.sub_diag, skipn_O. cbn [app].
      unfold crlf in E. destruct x as [|x1 x].
      { cbn [app] in *. subst z. cbn in NE. eexists. apply (cfail clen); [reflexivity|]. cbn [abyte_raw a_st]. unfold a_expect.
        replace (b =? 13) with false by (symmetry; apply N.eqb_neq; congruence). reflexivity. }
      injection E as <- E. cbn [app].
      rewrite (ckeep clen 0 StChunkDataCr 13 [] StChunkDataLf) by reflexivity.
      destruct x as [|x2 x].
      { cbn [app] in *. subst z. cbn in NE. eexists. apply (cfail clen); [reflexivity|]. cbn [abyte_raw a_st]. unfold a_expect.
        replace (b =? 10) with false by (symmetry; apply N.eqb_neq; congruence). reflexivity. }
      injection E as _ E. destruct x; [|discriminate E]. destruct z; [congruence|discriminate E].
    - destruct (N.eqb_spec len 0); [lia|]. destruct (N.eqb_spec len 1); [lia|]. reflexivity.
    - reflexivity.
    - reflexivity.
    - reflexivity.
    - destruct d, x; discriminate.
    - subst n. rewrite !app_length. lia.
  Qed.

  Lemma line_end s xs d b : wf_chunk (Chunk s xs d) -> b <> 10 -> forall l r, exists l',
    run (A StChunkLength1 0 0 0) l (s ++ flat_map render_ext xs ++ 13 :: b :: r) = AFail l' (ErCrlfSequence b) r.
  Proof.
    intros W B l r. destruct (chunk_line s xs d W l (b :: r)) as [l1 L1].
    eexists. etransitivity; [exact L1|]. apply (cfail clen); [reflexivity|]. cbn [abyte_raw a_st]. unfold a_expect. apply N.eqb_neq in B. now rewrite B.
  Qed.
End Chunk.

Lemma chunk_then h q cs y e r segs : Forall wf_chunk cs ->
  (forall e', same_kind e' e -> e' = e) -> y <> [] ->
  (forall l, exists l', aexec Chunked None (fun _ => None) (A StChunkLength1 0 0 0) l y = AFail l' e r) ->
  List.concat segs = flat_map render_chunk cs ++ y ->
  exists p' log rest, feed h (init_chunked q) segs = (p', log, rest, OError e).
Proof.
  intros F U N X E. destruct (X ([] ++ flat_map seen_chunk cs)) as [l L].
  apply (feed_chunk_wrong h q segs l e r U).
  - intros ->. cbn in E. symmetry in E. apply app_eq_nil in E. now destruct E.
  - rewrite E. etransitivity; [apply chunks_bytes; assumption|exact L].
Qed.

Lemma chunk_line_end h q cs s xs d b tail segs :
  Forall wf_chunk cs -> wf_chunk (Chunk s xs d) -> b <> 10 ->
  List.concat segs = flat_map render_chunk cs ++ s ++ flat_map render_ext xs ++ 13 :: b :: tail ->
  exists p' log rest, feed h (init_chunked q) segs = (p', log, rest, OError (ErCrlfSequence b)).
Proof.
  intros F W B. apply (chunk_then h q cs _ _ tail segs F (crlf_kind b)).
  - destruct s; [|discriminate]. destruct W as (L & _). cbn in L. lia.
  - intros l. now apply (line_end _ s xs d).
Qed.

Lemma chunk_data_end h q cs s xs d x z b tail segs :
  Forall wf_chunk cs -> wf_chunk (Chunk s xs d) -> crlf = x ++ z -> z <> [] -> Some b <> nth_error z 0 ->
  List.concat segs = flat_map render_chunk cs ++ s ++ flat_map render_ext xs ++ crlf ++ d ++ x ++ b :: tail ->
  exists p' log rest, feed h (init_chunked q) segs = (p', log, rest, OError (ErCrlfSequence b)).
Proof.
  intros F W E N B. apply (chunk_then h q cs _ _ tail segs F (crlf_kind b)).
  - destruct s; [|discriminate]. destruct W as (L & _). cbn in L. lia.
  - intros l. now apply (data_end _ s xs d x z).
Qed.
