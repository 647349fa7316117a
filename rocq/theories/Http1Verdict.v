(* What each outcome of feeding a stream has to mean, given the grammar of the
   messages.  Vocabulary of the property on verdicts; independent of the parser
   model. *)

From Coq Require Import NArith List Bool Arith String.
From Verif Require Import Bytes Http1Model Http1Spec Http1Protocol Http1Wire Http1Accept.
Import ListNotations.
Local Open Scope N_scope.

(* G w L: w is a message, to be seen as L.  s is the stream so far, seen what
   was seen of it.
   - Finished: a message, what it has to be seen as, and the rest.
   - Everything consumed: no message yet, but there will be one if the right
     bytes follow; what was seen so far is a beginning of what is to be seen.
   - An error or a panic: no message, whatever follows. *)
Definition right_verdict (G : list byte -> list fevent -> Prop) (s : list byte)
           (seen : list fevent) (rest : list byte) (o : ending) : Prop :=
  match o with
  | OFinished => exists w, s = w ++ rest /\ G w seen
  | OEos => rest = [] /\ (exists x L, G (s ++ x) (seen ++ L)) /\ (forall w y L, s = w ++ y -> ~ G w L)
  | OError _ | OFault _ => forall x w y L, s ++ x = w ++ y -> ~ G w L
  | OFuel => False
  end.

(* URL-encoded bodies of n bytes. *)
Definition url_body (n : N) (w : list byte) (L : list fevent) : Prop :=
  N.of_nat (List.length w) = n /\ exists e, pairs_as w e /\ L = e ++ [FEv EBodyFinished].
