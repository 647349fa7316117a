(* Sample byte streams for the examples beside C67. *)

From Coq Require Import NArith List Bool Arith String.
From Verif Require Import Bytes Http2Model Http2Spec.
Import ListNotations.
Local Open Scope N_scope.

(* A DATA frame of length 2 that claims 5 bytes of padding, followed by a PING
   frame that is taken for its data. *)
Definition full_short : list byte :=
  [0; 0; 2; 0; 8; 0; 0; 0; 1; 5] ++ bs "yz" ++ [0; 0; 8; 6; 0; 0; 0; 0; 0] ++ bs "pingpong".
(* A WINDOW_UPDATE frame whose stream identifier is cut in the middle. *)
Definition full_cut : list (list byte) :=
  [[0; 0; 4; 8; 0; 1; 2]; [3; 4; 0; 0; 0; 100]].
(* A setting cut in its value, then a frame that is in order. *)
Definition full_lost : list (list byte) :=
  [[0; 0; 6; 4; 0; 0; 0; 0; 0; 0; 3; 0; 0]; [0; 100; 0; 0; 4; 8; 0; 0; 0; 0; 1; 0; 0; 0; 1]].
(* A GOAWAY frame cut in its last-stream-id. *)
Definition full_gone : list (list byte) :=
  [[0; 0; 8; 7; 0; 0; 0; 0; 0; 0]; [0; 0; 5; 0; 0; 0; 2]; [0; 0; 4; 8; 0; 0; 0; 0; 1; 0; 0; 0; 1]].
(* A handler that pauses before every other callback. *)
Definition full_pausing : handler := fun log _ => negb (Nat.even (List.length log)).
