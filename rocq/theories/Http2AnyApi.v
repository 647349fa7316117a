(* The parser and the specification of Http2Any.v agree. *)

From Coq Require Import NArith List Bool Arith String Lia.
From Verif Require Import Bytes ByteStream Http2Model Http2Spec Http2Wp Http2Term Http2Sem Http2Sim Http2Run
  Http2Frame Http2Cut Http2Api Http2Any Http2AnyFacts Http2Over.
Import ListNotations.
Local Open Scope N_scope.

Lemma abs_st p : waiting (state_fn p) = true -> a_st (abs p) = state_fn p.
Proof. unfold abs. now destruct (state_fn p). Qed.

Lemma prefix_decoded segs before after : bytes (List.concat segs) -> segs = before ++ after ->
  bytes (List.concat before).
Proof. intros B ->. rewrite concat_app in B. apply Forall_app in B. apply B. Qed.

Lemma whole_safe segs : bytes (List.concat segs) -> whole_fields segs -> sound_cuts A0 segs.
Proof.
  intros B W b a y E Y. pose proof (decoded_ok _ (prefix_decoded _ _ _ B E)) as D.
  specialize (W b a). destruct (snd (decoded (List.concat b))) as [r|].
  - destruct D as (y' & D1 & _ & D2 & _). rewrite D1 in Y. cbn [snd] in Y. apply some_eq in Y. subst y'.
    rewrite D2. now apply W.
  - rewrite D in Y. discriminate.
Qed.

Lemma h2_any chk h segs :
  bytes (List.concat segs) -> whole_fields segs ->
  (snd (decoded (List.concat segs)) = None -> chk = true) ->
  exists p log,
    feed chk h new segs =
      (p, log, match snd (decoded (List.concat segs)) with Some _ => OEos | None => OFault FOverflow end) /\
    flat log = fst (decoded (List.concat segs)) /\
    forall r, snd (decoded (List.concat segs)) = Some r ->
      (state p = StFrameLength1 <-> r = []) /\ (exists u, List.concat segs = u ++ r) /\
      exists q logq, feed chk h new [r] = (q, logq, OEos) /\ same_place p q.
Proof.
  intros B W C. pose proof (whole_safe _ B W) as S. pose proof (decoded_ok _ B) as D.
  destruct (snd (decoded (List.concat segs))) as [r|] eqn:E.
  - destruct D as (y & D1 & D2 & D3 & D4 & u & D5).
    destruct (feed_sim chk h new segs ok_new) as (p & log & F & K & X); [exact B| |].
    { intros b a Eb. rewrite abs_new. destruct (snd (aexec A0 (List.concat b))) as [z|] eqn:Z.
      - exists z. split; [exact Z|]. exact (S b a z Eb Z).
      - exfalso. rewrite Eb, concat_app, aexec_app, Z in D1. rewrite D1 in Z. discriminate. }
    rewrite abs_new, D1 in X. injection X as X1 X2.
    exists p, log. split; [exact F|]. split; [now symmetry|].
    intros r' R. apply some_eq in R. subst r'.
    destruct K as (K1 & K2 & K3 & K4). split.
    { rewrite K4, <- (abs_st _ K2), <- X2. exact D4. }
    split; [now exists u|].
    assert (bytes r) as Br by (rewrite D5 in B; apply Forall_app in B; apply B).
    destruct (feed_sim chk h new [r] ok_new) as (q & logq & Fq & Kq & Xq).
    { cbn [List.concat]. now rewrite app_nil_r. }
    { intros b a Eb. rewrite abs_new. destruct b as [|c b].
      - exists A0. split; [exact eq_refl|reflexivity].
      - cbn [app] in Eb. injection Eb as <- Eb. symmetry in Eb. apply app_eq_nil in Eb.
        destruct Eb as [-> _]. exists y. cbn [List.concat]. rewrite app_nil_r.
        split; [exact D2|]. rewrite X2, (abs_st _ K2). exact K3. }
    exists q, logq. split; [exact Fq|]. cbn [List.concat] in Xq. rewrite app_nil_r, abs_new in Xq.
    rewrite Xq in D2. cbn [snd] in D2. apply some_eq in D2.
    apply abs_place; [repeat split; assumption|exact Kq|congruence].
  - rewrite (C eq_refl). destruct (feed_doom h new segs ok_new) as (p & log & F & X); [exact B| |now rewrite abs_new, D|].
    { now rewrite abs_new. }
    exists p, log. split; [exact F|]. rewrite abs_new, D in X. injection X as X.
    split; [now symmetry|]. discriminate.
Qed.

Lemma decoded_frames fs (v : byte) : Forall wf_frame fs -> v < 256 ->
  fst (decoded (render_all fs ++ [v])) = seen_all fs /\
  snd (decoded (render_all fs ++ [v])) <> None.
Proof.
  intros W V. assert (bytes (render_all fs ++ [v])) as B.
  { apply Forall_app. split; [now apply render_all_bytes|]. now repeat constructor. }
  pose proof (decoded_ok _ B) as D. rewrite aexec_frames in D by (assumption || discriminate).
  destruct (snd (decoded _)) as [r|].
  - destruct D as (y & D & _). split; [|discriminate]. apply (f_equal fst) in D. cbn [fst] in D.
    rewrite <- D. unfold before. cbn [fst].
    assert (fst (aexec A0 [v]) = []) as -> by exact eq_refl. now rewrite app_nil_r.
  - exfalso. apply (f_equal snd) in D. rewrite snd_before in D. discriminate D.
Qed.
