(* How much is reported to a handler: vocabulary. *)

From Coq Require Import List.
From Verif Require Import Bytes Http1Model.
Import ListNotations.

(* The number of bytes of data the calls l report. *)
Fixpoint data_bytes (l : list event) : nat :=
  match l with
  | [] => 0
  | EData _ d :: l' => List.length d + data_bytes l'
  | _ :: l' => data_bytes l'
  end.
