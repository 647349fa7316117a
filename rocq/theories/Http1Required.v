(* A missing delimiter is noticed with everything before it reported; methods
   beginning with H in a first piece of nine bytes. *)

From Coq Require Import NArith List Bool Arith String Lia.
From Verif Require Import Bytes ByteStream Http1Model Http1Base Http1Wp Http1Term Http1Spec Http1Sem
  Http1Sim Http1Step Http1Misc Http1Run Http1Client Http1Api Http1Url Http1Count Http1Protocol Http1Data Http1Wire
  Http1Round Http1Round2 Http1Lost Http1LostFacts.
Import ListNotations.
Local Open Scope N_scope.

Lemma multipart_required_exact h clen q bd ps p x z b r segs :
  (forall l, h_clen h l = clen (flat l)) ->
  ~ In 13 bd -> N.of_nat (List.length bd) <= 2 ^ 14 ->
  Forall wf_part ps -> wf_part p -> m_answer p <> None -> answers clen [] (ps ++ [p]) ->
  crlf ++ bs "--" ++ bd = x ++ z -> z <> [] -> Some b <> nth_error z 0 ->
  List.concat segs = bs "--" ++ bd ++ flat_map (render_part bd) ps ++
                     crlf ++ render_headers (m_headers p) ++ m_data p ++ x ++ b :: r ->
  exists p' log b', feed h (set_boundary (init_multipart q) bd) segs = (p', log, [], OError (ErMultipartBoundary b')) /\
    flat log = flat_map seen_part ps ++ seen_part p.
Proof.
  intros Hc C L F Fp Np Q E Nz Nb Es.
  destruct (multipart_required h clen q bd ps p x z b r segs Hc C L F Fp Np Q E Nz Nb Es) as (p' & log & b' & Y & _).
  exists p', log, b'. split; [exact Y|].
  assert (NE : segs <> []) by (intros ->; cbn in Es; discriminate).
  assert (I : rinv2 (set_boundary (init_multipart q) bd) (hd [] segs) (List.concat (tl segs))).
  { constructor; try reflexivity; try discriminate; [left; reflexivity|]. intros _. now split. }
  unfold feed in Y.
  assert (D : state_fn (set_boundary (init_multipart q) bd) = StDetect1 -> hd [] segs <> []) by discriminate.
  destruct (client_lost h clen Hc _ _ _ _ _ _ _ _ I (or_intror NE) D eq_refl Y) as (M & e' & R & X & (k & d & EM & [->|[Z _]]));
    [|discriminate Z].
  rewrite Es in X. change (flat []) with (@nil fevent) in X.
  pose proof (required_exec clen bd ps p x z b r F Fp Np Q E Nz Nb) as X'.
  assert (X2 : AFail M e' R = AFail (flat_map seen_part ps ++ seen_part p) (ErMultipartBoundary b) r)
    by (rewrite <- X; exact X').
  injection X2 as X2 _ _. rewrite <- X2, EM. cbn [map]. now rewrite app_nil_r.
Qed.

Definition byte_of (k : dkind) (e : fevent) : list byte :=
  match e with FByte k' b => if dkind_dec k k' then [b] else [] | FEv _ => [] end.

Lemma byte_of_map k k' d : flat_map (byte_of k) (map (FByte k') d) = if dkind_dec k k' then d else [].
Proof.
  induction d as [|b d IH]; cbn [map flat_map byte_of]; [now destruct (dkind_dec k k')|].
  rewrite IH. now destruct (dkind_dec k k').
Qed.

Lemma data_of_flat k l : data_of k l = flat_map (byte_of k) (flat l).
Proof.
  induction l as [|e l IH]; [reflexivity|].
  change (flat (e :: l)) with (flat1 e ++ flat l). rewrite flat_map_app, <- IH.
  destruct e; try reflexivity. cbn [data_of flat1]. rewrite byte_of_map. now destruct (dkind_dec k k0).
Qed.

Lemma seen_request_method req : flat_map (byte_of KMethod) (seen_request req) = q_method req.
Proof.
  unfold seen_request, seen_headers. rewrite !flat_map_app, !byte_of_map.
  cbn [flat_map byte_of dkind_dec dkind_rec dkind_rect seen_version].
  assert (X : flat_map (byte_of KMethod) (flat_map seen_header (q_headers req)) = []).
  { induction (q_headers req) as [|f fs IH]; [reflexivity|]. cbn [flat_map]. rewrite flat_map_app, IH.
    unfold seen_header. rewrite flat_map_app, !byte_of_map. reflexivity. }
  rewrite X. cbn. now rewrite !app_nil_r.
Qed.

Lemma h_method_whole h q req tail segs :
  wf_request req -> hd 0 (q_method req) = 72 -> List.concat segs = render_request req ++ tail ->
  (9 <= List.length (strip (hd [] segs)))%nat ->
  exists p' log, feed h (init_head q) segs = (p', log, tail, OFinished) /\ data_of KMethod log = q_method req.
Proof.
  intros W _ E L. destruct (request_round h q req tail segs W E (or_intror L)) as (p' & log & F & S).
  exists p', log. split; [exact F|]. rewrite data_of_flat, S. apply seen_request_method.
Qed.
