(* How data is handed to the handler: vocabulary of the property on fragments. *)

From Coq Require Import NArith List Bool.
From Verif Require Import Bytes Http2Model.
Import ListNotations.

(* The data of the calls l are cut out of the piece s, from left to right and
   without overlapping.  Data of an item that does not end in the piece is not
   empty, reaches to the end of the piece, and is the last thing reported. *)
Inductive cut_from : list byte -> list event -> Prop :=
| cut_none s : cut_from s []
| cut_other s e l : (forall k d fin, e <> EData k d fin) -> cut_from s l -> cut_from s (e :: l)
| cut_open x k d : d <> [] -> cut_from (x ++ d) [EData k d false]
| cut_closed x k d y l : cut_from y l -> cut_from (x ++ d ++ y) (EData k d true :: l).
