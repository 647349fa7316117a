(* How the data of the calls are cut out of a piece: vocabulary. *)

From Coq Require Import NArith List Bool.
From Verif Require Import Bytes Http1Model.
Import ListNotations.
Local Open Scope N_scope.

(* ASCII lower case *)
Definition small (b : N) : N := if (65 <=? b) && (b <=? 90) then b + 32 else b.

(* A hexadecimal digit *)
Definition hexadecimal (b : N) : bool :=
  (48 <=? b) && (b <=? 57) || (65 <=? b) && (b <=? 70) || (97 <=? b) && (b <=? 102).

Definition is_name (k : dkind) : bool :=
  match k with KHeaderName | KChunkExtName => true | _ => false end.

Definition is_url (k : dkind) : bool :=
  match k with KUrlName | KUrlValue => true | _ => false end.

(* The bytes x of the stream are reported as the data d of an item of kind k: as
   they are, except for letters in names, a plus sign (x is empty, for the sign
   may be the last byte of the call before), escapes (x is the second digit), and
   multipart data that had been taken for the beginning of a delimiter (x is
   empty or the byte that was not expected). *)
Inductive read_as (boundary : option (list byte)) : dkind -> list byte -> list byte -> Prop :=
| read_same k d : is_name k = false -> read_as boundary k d d
| read_name k d : is_name k = true -> read_as boundary k d (map small d)
| read_plus k : is_url k = true -> read_as boundary k [] [32]
| read_escape k x y : is_url k = true -> hexadecimal x = true -> y < 256 -> read_as boundary k [x] [y]
| read_delimiter t t' d : (List.length d <= 1)%nat ->
    [13; 10; 45; 45] ++ match boundary with Some b => b | None => [] end = t ++ t' ->
    read_as boundary KMultipartData d (t ++ d).

(* The data of the calls l are cut out of the piece s, from left to right and
   without overlapping; no data is empty. *)
Inductive cut_from (boundary : option (list byte)) : list byte -> list event -> Prop :=
| cut_none s : cut_from boundary s []
| cut_skip b s l : cut_from boundary s l -> cut_from boundary (b :: s) l
| cut_call s e l : (forall k d, e <> EData k d) -> cut_from boundary s l -> cut_from boundary s (e :: l)
| cut_data k x d s l : d <> [] -> read_as boundary k x d -> cut_from boundary s l ->
    cut_from boundary (x ++ s) (EData k d :: l).

(* Items that are never cut by the parser itself: at most one call per item and
   piece. *)
Definition whole (k : dkind) : bool :=
  match k with KMethod | KUrl | KStatus | KChunkData => true | _ => false end.

(* No two calls in a row report data of the same kind among these. *)
Definition uncut (l : list event) : Prop :=
  forall a k d d' b, l = a ++ EData k d :: EData k d' :: b -> whole k = false.
