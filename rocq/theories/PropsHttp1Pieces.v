(* How the data handed to an HTTP/1 handler is cut: C71.  Vocabulary: reachable
   and feed of Http1Spec.v, cut_from and uncut of Http1Pieces.v. *)

From Coq Require Import NArith List Bool Arith String.
From Verif Require Import Bytes Http1Model Http1Spec Http1Pieces Http1PiecesRun.
Import ListNotations.
Local Open Scope N_scope.

(* C71, one call.  Any parser, any bytes, any handler. *)
Theorem C71_data_in_piece : forall h p log s p' log' r,
  resume h p log s = (p', log', r) ->
  exists calls, log' = log ++ calls /\ cut_from (boundary p) s calls /\ uncut calls.
Proof. exact h1_cut_one. Qed.
Print Assumptions C71_data_in_piece.

(* C71, a stream in pieces: to every piece belong calls whose data are cut out of
   it, also if the handler pauses the parser within the piece. *)
Theorem C71_calls_of_pieces : forall h p segs,
  reachable p ->
  exists parts, Forall2 (fun s l => cut_from (boundary p) s l /\ uncut l) segs parts /\
    forall i, snd (fst (fst (feed h p (firstn i segs)))) = List.concat (firstn i parts).
Proof. exact h1_cut_pieces. Qed.
Print Assumptions C71_calls_of_pieces.

(* A chunked body whose data is cut, an extension name with a capital, a handler
   that pauses at every call. *)
Example C71_case :
  let segs := [bs "5;aB=c" ++ crlf ++ bs "da"; bs "ta!" ++ crlf ++ bs "0" ++ crlf ++ crlf] in
  reachable (init_chunked new) /\
  filter (fun e => match e with EData _ _ => true | _ => false end) (snd (fst (fst (feed never (init_chunked new) (firstn 1 segs))))) =
    [EData KChunkExtName (bs "a"); EData KChunkExtName (bs "b"); EData KChunkExtValue (bs "c"); EData KChunkData (bs "da")] /\
  filter (fun e => match e with EData _ _ => true | _ => false end) (snd (fst (fst (feed never (init_chunked new) segs)))) =
    [EData KChunkExtName (bs "a"); EData KChunkExtName (bs "b"); EData KChunkExtValue (bs "c"); EData KChunkData (bs "da");
     EData KChunkData (bs "ta!")].
Proof. split; [do 2 constructor|]. split; vm_compute; reflexivity. Qed.

(* The relation is not trivial. *)
Example C71_not_cut :
  cut_from None (bs "GET ") [EData KMethod (bs "GET")] /\
  ~ cut_from None [97] [EData KUrl [98]] /\
  ~ uncut [EData KUrl [97]; EData KUrl [98]].
Proof.
  split; [|split].
  - apply (cut_data None KMethod (bs "GET") (bs "GET") (bs " ") []); [discriminate|now constructor|constructor].
  - assert (I : forall s, cut_from None s [EData KUrl [98]] -> In 98 s).
    { intros s C. remember [EData KUrl [98]] as l eqn:El. induction C as [|b s l C IH|s e l H C IH|k x d s l H R C IH].
      - discriminate El.
      - right. now apply IH.
      - injection El as -> _. now destruct (H KUrl [98]).
      - injection El as -> -> _. apply in_or_app. left. inversion R; try discriminate. now left. }
    intros C. apply I in C. destruct C as [C|[]]. discriminate C.
  - intros U. now specialize (U [] KUrl [97] [98] [] eq_refl).
Qed.
