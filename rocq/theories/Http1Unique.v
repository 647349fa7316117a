(* The grammars of Http1Accept.v are unambiguous.  Proofs for PropsHttp1Unique.v. *)

From Coq Require Import NArith List Bool Arith String.
From Verif Require Import Bytes Http1Model Http1Spec Http1Protocol Http1Wire Http1Accept
  Http1Sem Http1Parse Http1Parse2 Http1Parse3 Http1Parse4.
Import ListNotations.
Local Open Scope N_scope.

Lemma head_unique w1 L1 r1 w2 L2 r2 :
  head_as w1 L1 -> head_as w2 L2 -> w1 ++ r1 = w2 ++ r2 -> w1 = w2 /\ L1 = L2.
Proof.
  intros H1 H2 E. pose proof (head_run None (fun _ => None) w1 L1 r1 H1) as R1.
  rewrite E, (head_run None (fun _ => None) w2 L2 r2 H2) in R1. injection R1 as -> ->.
  split; [|reflexivity]. now apply app_inv_tail in E.
Qed.

Lemma chunked_unique w1 L1 r1 w2 L2 r2 :
  chunked_as w1 L1 -> chunked_as w2 L2 -> w1 ++ r1 = w2 ++ r2 -> w1 = w2 /\ L1 = L2.
Proof.
  intros H1 H2 E. pose proof (chunked_run (fun _ => None) w1 L1 H1 [] r1) as R1.
  rewrite E, (chunked_run (fun _ => None) w2 L2 H2 [] r2) in R1. injection R1 as -> ->.
  split; [|reflexivity]. now apply app_inv_tail in E.
Qed.

Lemma multipart_unique bd clen w1 L1 r1 w2 L2 r2 : ~ In 13 bd ->
  multipart_as bd clen w1 L1 -> multipart_as bd clen w2 L2 -> w1 ++ r1 = w2 ++ r2 -> w1 = w2 /\ L1 = L2.
Proof.
  intros C H1 H2 E. pose proof (multipart_run clen bd C w1 L1 r1 H1) as R1.
  pose proof (multipart_run clen bd C w2 L2 r2 H2) as R2. rewrite E in R1.
  destruct R1 as (a1 & R1 & _). destruct R2 as (a2 & R2 & _). rewrite R1 in R2. injection R2 as -> _ ->.
  split; [|reflexivity]. now apply app_inv_tail in E.
Qed.

Lemma pairs_unique w e1 e2 : pairs_as w e1 -> pairs_as w e2 -> e1 = e2.
Proof.
  intros H1 H2. destruct (pairs_run (fun _ => None) w e1 H1 []) as (a1 & R1 & _).
  destruct (pairs_run (fun _ => None) w e2 H2 []) as (a2 & R2 & _). rewrite R1 in R2. now injection R2.
Qed.

(* ------------------------------------------------------------------ *)
(* Two clients                                                          *)
(* ------------------------------------------------------------------ *)

Lemma head_stays h1 h2 q1 q2 segs1 segs2 x1 x2 p1 p2 log1 log2 tail1 tail2 :
  hok (strip (List.concat segs1)) = true \/ (9 <= List.length (strip (hd [] segs1)))%nat ->
  hok (strip (List.concat segs2)) = true \/ (9 <= List.length (strip (hd [] segs2)))%nat ->
  feed h1 (init_head q1) segs1 = (p1, log1, tail1, OFinished) ->
  feed h2 (init_head q2) segs2 = (p2, log2, tail2, OFinished) ->
  List.concat segs1 ++ x1 = List.concat segs2 ++ x2 ->
  flat log1 = flat log2 /\ tail1 ++ x1 = tail2 ++ x2.
Proof.
  intros O1 O2 F1 F2 E.
  destruct (proj1 (head_exact h1 q1 segs1 tail1 (flat log1) O1)) as (w1 & E1 & A1); [now exists p1, log1|].
  destruct (proj1 (head_exact h2 q2 segs2 tail2 (flat log2) O2)) as (w2 & E2 & A2); [now exists p2, log2|].
  rewrite E1, E2, <- !app_assoc in E. destruct (head_unique _ _ _ _ _ _ A1 A2 E) as [-> Q].
  split; [exact Q|]. now apply app_inv_head in E.
Qed.

Lemma chunked_stays h1 h2 q1 q2 segs1 segs2 x1 x2 p1 p2 log1 log2 tail1 tail2 :
  feed h1 (init_chunked q1) segs1 = (p1, log1, tail1, OFinished) ->
  feed h2 (init_chunked q2) segs2 = (p2, log2, tail2, OFinished) ->
  List.concat segs1 ++ x1 = List.concat segs2 ++ x2 ->
  flat log1 = flat log2 /\ tail1 ++ x1 = tail2 ++ x2.
Proof.
  intros F1 F2 E.
  destruct (proj1 (chunked_exact h1 q1 segs1 tail1 (flat log1))) as (w1 & E1 & A1); [now exists p1, log1|].
  destruct (proj1 (chunked_exact h2 q2 segs2 tail2 (flat log2))) as (w2 & E2 & A2); [now exists p2, log2|].
  rewrite E1, E2, <- !app_assoc in E. destruct (chunked_unique _ _ _ _ _ _ A1 A2 E) as [-> Q].
  split; [exact Q|]. now apply app_inv_head in E.
Qed.

Lemma multipart_stays h1 h2 clen q1 q2 bd segs1 segs2 x1 x2 p1 p2 log1 log2 tail1 tail2 :
  (forall l, h_clen h1 l = clen (flat l)) -> (forall l, h_clen h2 l = clen (flat l)) ->
  ~ In 13 bd -> N.of_nat (List.length bd) <= 2 ^ 14 ->
  feed h1 (set_boundary (init_multipart q1) bd) segs1 = (p1, log1, tail1, OFinished) ->
  feed h2 (set_boundary (init_multipart q2) bd) segs2 = (p2, log2, tail2, OFinished) ->
  List.concat segs1 ++ x1 = List.concat segs2 ++ x2 ->
  flat log1 = flat log2 /\ tail1 ++ x1 = tail2 ++ x2.
Proof.
  intros K1 K2 C B F1 F2 E.
  destruct (proj1 (multipart_exact h1 clen q1 bd segs1 tail1 (flat log1) K1 C B)) as (w1 & E1 & A1); [now exists p1, log1|].
  destruct (proj1 (multipart_exact h2 clen q2 bd segs2 tail2 (flat log2) K2 C B)) as (w2 & E2 & A2); [now exists p2, log2|].
  rewrite E1, E2, <- !app_assoc in E. destruct (multipart_unique _ _ _ _ _ _ _ _ C A1 A2 E) as [-> Q].
  split; [exact Q|]. now apply app_inv_head in E.
Qed.

Lemma url_stays h1 h2 q1 q2 n segs1 segs2 x1 x2 p1 p2 log1 log2 tail1 tail2 : segs1 <> [] -> segs2 <> [] ->
  feed h1 (set_length (init_url_encoded q1) n) segs1 = (p1, log1, tail1, OFinished) ->
  feed h2 (set_length (init_url_encoded q2) n) segs2 = (p2, log2, tail2, OFinished) ->
  List.concat segs1 ++ x1 = List.concat segs2 ++ x2 ->
  flat log1 = flat log2 /\ tail1 ++ x1 = tail2 ++ x2.
Proof.
  intros N1 N2 F1 F2 E.
  destruct (proj1 (url_exact h1 q1 n segs1 tail1 (flat log1) N1)) as (w1 & e1 & E1 & K1 & A1 & ->); [now exists p1, log1|].
  destruct (proj1 (url_exact h2 q2 n segs2 tail2 (flat log2) N2)) as (w2 & e2 & E2 & K2 & A2 & ->); [now exists p2, log2|].
  rewrite E1, E2, <- !app_assoc in E. rewrite <- K2 in K1. apply Nat2N.inj in K1.
  assert (W : w1 = w2).
  { rewrite <- (firstn_all w1), <- (firstn_all w2).
    pose proof (f_equal (firstn (List.length w1)) E) as Q. rewrite !firstn_app, K1, !Nat.sub_diag in Q. cbn [firstn] in Q.
    rewrite !app_nil_r in Q. now rewrite K1. }
  subst w2. split; [now rewrite (pairs_unique _ _ _ A1 A2)|]. now apply app_inv_head in E.
Qed.
