(* Preambles that do not begin with the delimiter. *)

From Coq Require Import NArith List Bool Arith String Lia.
From Verif Require Import Bytes Http1Model Http1Spec Http1Protocol Http1Wire PreambleSpec PreambleFacts.
Import ListNotations.
Local Open Scope N_scope.
Local Open Scope list_scope.

(* s begins with d, or leaves it at a byte, or ends within it. *)
Lemma leaves (d : list byte) : forall s : list byte,
  (exists u, s = d ++ u) \/ (exists x z b r, d = x ++ z /\ z <> [] /\ Some b <> nth_error z 0 /\ s = x ++ b :: r) \/
  (exists z, d = s ++ z /\ z <> []).
Proof.
  induction d as [|c d IH]; intros s; [left; now exists s|].
  destruct s as [|b s]; [right; right; exists (c :: d); now split|].
  destruct (N.eq_dec b c) as [->|NE].
  - destruct (IH s) as [(u & ->)|[(x & z & b & r & -> & N & Nb & ->)|(z & -> & N)]].
    + left. now exists u.
    + right. left. exists (c :: x), z, b, r. auto.
    + right. right. exists z. auto.
  - right. left. exists [], (c :: d), b, s. split; [reflexivity|]. split; [discriminate|]. split; [|reflexivity].
    cbn. congruence.
Qed.

Lemma preamble_rejected h clen q bd t pad rest segs :
  (forall l, h_clen h l = clen (flat l)) ->
  ~ In 13 bd -> N.of_nat (List.length bd) <= 2 ^ 14 ->
  (forall u, t <> bs "--" ++ bd ++ u) ->
  List.concat segs = framed bd (Some t) pad rest ->
  exists p' log b', feed h (set_boundary (init_multipart q) bd) segs = (p', log, [], OError (ErMultipartBoundary b')) /\
    flat log = [].
Proof.
  intros Hc C L NB Es. unfold framed in Es. rewrite <- app_assoc in Es.
  destruct (leaves (bs "--" ++ bd) t) as [(u & E)|[(x & z & b & r & E & N & Nb & ->)|(z & E & N)]].
  - exfalso. apply (NB u). rewrite E. now rewrite <- app_assoc.
  - rewrite <- app_assoc in Es. cbn [app] in Es. exact (preamble_lost h clen q bd x z b _ segs Hc C L E N Nb Es).
  - unfold crlf at 1 in Es. cbn [app] in Es.
    refine (preamble_lost h clen q bd t z 13 _ segs Hc C L E N _ Es).
    destruct z as [|c z]; [congruence|]. cbn. intros [= <-].
    assert (I : In 13 (bs "--" ++ bd)) by (rewrite E; apply in_or_app; right; now left).
    change (bs "--") with [45; 45] in I. cbn in I. destruct I as [I|[I|I]]; [discriminate..|]. exact (C I).
Qed.
