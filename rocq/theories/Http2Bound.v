(* How much is reported to an HTTP/2 handler: vocabulary. *)

From Coq Require Import List.
From Verif Require Import Bytes Http2Model.
Import ListNotations.

(* The number of bytes of data the calls l report. *)
Fixpoint data_bytes (l : list event) : nat :=
  match l with
  | [] => 0
  | EData _ d _ :: l' => List.length d + data_bytes l'
  | _ :: l' => data_bytes l'
  end.

(* The number of frames the calls l report. *)
Fixpoint frames (l : list event) : nat :=
  match l with
  | [] => 0
  | EFrameFormat _ _ _ _ :: l' => S (frames l')
  | _ :: l' => frames l'
  end.
