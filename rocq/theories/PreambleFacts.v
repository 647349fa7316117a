(* Text before the first delimiter of a multipart body, and behind a boundary. *)

From Coq Require Import NArith List Bool Arith String Lia.
From Verif Require Import Bytes ByteStream Http1Model Http1Base Http1Wp Http1Term Http1Spec Http1Sem
  Http1Sim Http1Step Http1Misc Http1Run Http1Client Http1Api Http1Url Http1Count Http1Protocol Http1Data Http1Wire
  Http1Round Http1Round2 Http1Lost Http1LostFacts.
Import ListNotations.
Local Open Scope N_scope.
Local Open Scope list_scope.

Lemma feed_boundary_wrong h clen q bd segs L b r :
  (forall l, h_clen h l = clen (flat l)) ->
  ~ In 13 bd -> N.of_nat (List.length bd) <= 2 ^ 14 -> segs <> [] ->
  aexec Multipart (Some bd) clen (A StMultipartHyphen1 1 0 0) [] (List.concat segs) = AFail L (ErMultipartBoundary b) r ->
  exists p' log b', feed h (set_boundary (init_multipart q) bd) segs = (p', log, [], OError (ErMultipartBoundary b')) /\
    flat log = L.
Proof.
  intros Hc C B NE X'.
  assert (I : rinv2 (set_boundary (init_multipart q) bd) (hd [] segs) (List.concat (tl segs))).
  { constructor; try reflexivity; try discriminate; [left; reflexivity|]. intros _. now split. }
  edestruct (feed_fails h clen (set_boundary (init_multipart q) bd) segs) as (p' & log & e' & Y & Z & P);
    [exact Hc|exact I|assumption|discriminate|exact X'|].
  destruct e'; cbn in Z; try (discriminate Z); try contradiction.
  do 3 eexists. split; [exact Y|].
  unfold feed in Y.
  assert (D : state_fn (set_boundary (init_multipart q) bd) = StDetect1 -> hd [] segs <> []) by discriminate.
  destruct (client_lost h clen Hc _ _ _ _ _ _ _ _ I (or_intror NE) D eq_refl Y) as (M & e' & R & X & (k & d & EM & [->|[Z2 _]]));
    [|discriminate Z2].
  change (flat []) with (@nil fevent) in X.
  assert (X2 : AFail M e' R = AFail L (ErMultipartBoundary b) r) by (rewrite <- X; exact X').
  injection X2 as X2 _ _. rewrite <- X2, EM. cbn [map]. now rewrite app_nil_r.
Qed.

Lemma preamble_lost h clen q bd x z b tail segs :
  (forall l, h_clen h l = clen (flat l)) ->
  ~ In 13 bd -> N.of_nat (List.length bd) <= 2 ^ 14 ->
  bs "--" ++ bd = x ++ z -> z <> [] -> Some b <> nth_error z 0 ->
  List.concat segs = x ++ b :: tail ->
  exists p' log b', feed h (set_boundary (init_multipart q) bd) segs = (p', log, [], OError (ErMultipartBoundary b')) /\
    flat log = [].
Proof.
  intros Hc C L E N NE Es.
  assert (NS : segs <> []) by (intros ->; destruct x; discriminate).
  apply (feed_boundary_wrong h clen q bd segs [] b tail Hc C L NS). rewrite Es.
  change (bs "--") with [45; 45] in E. cbn [app] in E.
  assert (W : forall c c', Some b <> nth_error (c :: c') 0 -> (b =? c) = false)
    by (intros c c' X; apply N.eqb_neq; cbn in X; congruence).
  destruct x as [|x3 x].
  { cbn [app] in *. subst z. apply bfail; [reflexivity|]. cbn [abyte_raw a_st]. unfold a_expect, a_hyphen. now rewrite (W _ _ NE). }
  injection E as <- E. cbn [app].
  rewrite (mkeep clen bd 1 0 0 StMultipartHyphen1 45 [] StMultipartHyphen2) by reflexivity.
  rewrite app_nil_r. destruct x as [|x4 x].
  { cbn [app] in *. subst z. apply bfail; [reflexivity|]. cbn [abyte_raw a_st]. unfold a_expect, a_hyphen. now rewrite (W _ _ NE). }
  injection E as <- E. cbn [app].
  rewrite (mkeep clen bd 1 0 0 StMultipartHyphen2 45 [] StMultipartBoundary) by reflexivity.
  rewrite app_nil_r. now apply (boundary_required clen bd x [] z).
Qed.

Lemma padding_lost h clen q bd ps b tail segs :
  (forall l, h_clen h l = clen (flat l)) ->
  ~ In 13 bd -> N.of_nat (List.length bd) <= 2 ^ 14 ->
  Forall wf_part ps -> answers clen [] ps -> b <> 13 -> b <> 45 ->
  List.concat segs = bs "--" ++ bd ++ flat_map (render_part bd) ps ++ b :: tail ->
  exists p' log b', feed h (set_boundary (init_multipart q) bd) segs = (p', log, [], OError (ErMultipartBoundary b')) /\
    flat log = flat_map seen_part ps.
Proof.
  intros Hc C L F Q N1 N2 Es.
  assert (NS : segs <> []) by (intros ->; discriminate).
  apply (feed_boundary_wrong h clen q bd segs (flat_map seen_part ps) b tail Hc C L NS). rewrite Es.
  rewrite boundary_bytes by now destruct (flat_map (render_part bd) ps).
  destruct (parts_bytes clen bd ps 1 0 [] (b :: tail) ltac:(discriminate) F Q) as (lo & len & X).
  rewrite X. cbn [app]. apply bfail; [reflexivity|].
  cbn [abyte_raw a_st]. unfold a_boundary_cr.
  apply N.eqb_neq in N1, N2. now rewrite N1, N2.
Qed.
