(* Unquoted fields, each followed by the delimiter.  Vocabulary of C51. *)

From Coq Require Import NArith List Bool.
From Verif Require Import Bytes UtilModel UtilSpec.
Import ListNotations.
Local Open Scope N_scope.

Inductive Ahead (norm : bool) (d : byte) : list byte -> list item -> Prop :=
| ah_nil : Ahead norm d [] []
| ah_cons t i r items : FField norm d t i -> Ahead norm d r items -> Ahead norm d (t ++ d :: r) (i :: items).

(* A field with a quoted value, up to the closing quote and white space. *)
Inductive Quotes (norm : bool) (d : byte) : list byte -> item -> Prop :=
| quotes w n w' q v w'' : Forall ws w -> plain_name d n -> Forall ws w' -> FQuoted q v -> Forall ws w'' ->
    Quotes norm d (w ++ n ++ 61 :: w' ++ 34 :: q ++ 34 :: w'') (map (lower norm) n, Some v).
