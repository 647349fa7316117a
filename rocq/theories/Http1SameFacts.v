(* Pausing changes nothing: the theorems in the form of PropsHttp1Same.v. *)

From Coq Require Import NArith List Bool Arith String Lia.
From Verif Require Import Bytes ByteStream Http1Model Http1Spec Http1Client Http1SameClient.
Import ListNotations.
Local Open Scope N_scope.

Section Two.
  Variables (h h' : handler) (p : parser) (segs : list (list byte)).
  Variables (p1 : parser) (calls1 : list event) (rest1 : list byte) (o1 : ending).
  Variables (p2 : parser) (calls2 : list event) (rest2 : list byte) (o2 : ending).
  Hypothesis R : reachable p.
  Hypothesis Hc : forall l, h_clen h l = h_clen h' l.
  Hypothesis E1 : feed h p segs = (p1, calls1, rest1, o1).
  Hypothesis E2 : feed h' p segs = (p2, calls2, rest2, o2).

  Lemma h1_same_calls : calls1 = calls2 /\ rest1 = rest2 /\ o1 = o2.
  Proof.
    pose proof (h1_same h h' p segs R Hc) as S. rewrite E1, E2 in S. cbn [same_end] in S. tauto.
  Qed.

  Lemma h1_same_parser : (forall f, o1 <> OFault f) ->
    state p1 = state p2 /\
    (o1 = OEos \/ parser_type p <> UrlEncoded -> p1 = p2) /\
    (o1 <> OFinished -> byte_count p1 = byte_count p2).
  Proof.
    intros F. pose proof (h1_same h h' p segs R Hc) as S. rewrite E1, E2 in S. cbn [same_end] in S.
    destruct S as (_ & _ & _ & S).
    pose proof (feed_ends h p segs (reachable_vstate _ R)) as N. rewrite E1 in N. cbn [snd] in N.
    assert (U : parser_type p <> UrlEncoded -> is_url (parser_type p) = false)
      by (destruct (parser_type p); congruence || reflexivity).
    destruct o1; try congruence.
    - subst p2. auto.
    - destruct S as [S1 S2]. repeat split; [exact S1| |congruence]. intros [X|X]; [discriminate X|auto].
    - destruct S as (S1 & S2 & S3). repeat split; [exact S1| |auto]. intros [X|X]; [discriminate X|auto].
  Qed.
End Two.
