(* The line of the last chunk and the empty line behind the trailers: what may follow their CR. *)

From Coq Require Import NArith List Bool Arith String Lia.
From Verif Require Import Bytes ByteStream Http1Model Http1Base Http1Wp Http1Term Http1Spec Http1Sem
  Http1Sim Http1Step Http1Misc Http1Run Http1Client Http1Api Http1Protocol Http1Data Http1Wire Http1Round Http1Round2
  ExtSpec ExtFacts FieldNameBodies LineFacts LineChunk.
Import ListNotations.
Local Open Scope N_scope.
Local Open Scope list_scope.

Lemma last_chunk_line h q cs b tail segs : Forall wf_chunk cs -> b <> 10 ->
  List.concat segs = flat_map render_chunk cs ++ 48 :: 13 :: b :: tail ->
  exists p' log rest, feed h (init_chunked q) segs = (p', log, rest, OError (ErCrlfSequence b)).
Proof.
  intros F B. apply (chunk_then h q cs _ _ tail segs F (crlf_kind b)); [discriminate|]. intros l.
  rewrite (ckeep _ 0 StChunkLength1 48 [FEv EChunkBegin] StChunkLengthCr) by reflexivity.
  rewrite (ckeep _ 0 StChunkLengthCr 13 [FEv (EChunkLength 0)] StHeaderLf1) by reflexivity.
  eexists. apply (cfail (fun _ => None)); [reflexivity|]. cbn [abyte_raw a_st]. unfold a_expect. apply N.eqb_neq in B. now rewrite B.
Qed.

Lemma trailers_line h q cs ts b tail segs : Forall wf_chunk cs -> Forall wf_header ts -> b <> 10 ->
  List.concat segs = flat_map render_chunk cs ++ [48] ++ crlf ++ flat_map render_header ts ++ 13 :: b :: tail ->
  exists p' log rest, feed h (init_chunked q) segs = (p', log, rest, OError (ErCrlfSequence b)).
Proof.
  intros F T B. apply (chunk_then h q cs _ _ tail segs F (crlf_kind b)); [discriminate|]. intros l. unfold crlf. cbn [app].
  rewrite (ckeep _ 0 StChunkLength1 48 [FEv EChunkBegin] StChunkLengthCr) by reflexivity.
  rewrite (ckeep _ 0 StChunkLengthCr 13 [FEv (EChunkLength 0)] StHeaderLf1) by reflexivity.
  rewrite (ckeep _ 0 StHeaderLf1 10 [] StHeaderCr2) by reflexivity.
  rewrite (more_fields Chunked None (fun _ => None) 0 0 0 (chunk_keeps 0)) by assumption.
  rewrite (ckeep _ 0 StHeaderCr2 13 [] StHeaderLf2) by reflexivity.
  eexists. apply (cfail (fun _ => None)); [reflexivity|]. cbn [abyte_raw a_st]. unfold a_expect. apply N.eqb_neq in B. now rewrite B.
Qed.
