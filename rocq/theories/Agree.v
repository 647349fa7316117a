(* The three places of the crate that decode URL-encoded text: decode, QueryIterator
   and the parser for URL-encoded bodies.  Vocabulary of C73. *)

From Coq Require Import NArith List Bool Arith.
From Verif Require Import Bytes UtilModel.
Import ListNotations.
Local Open Scope N_scope.

(* Every '%' stands in a value, that is, after a '=' that belongs to the same pair,
   and two bytes follow it. *)
Definition escapes_in_values (t : list byte) : Prop :=
  forall x y, t = x ++ 37 :: y ->
    (2 <= List.length y)%nat /\ exists a v, x = a ++ 61 :: v /\ ~ In 38 v /\ ~ In 59 v.

(* Two bytes follow every '%'. *)
Definition whole_escapes (t : list byte) : Prop :=
  forall x y, t = x ++ 37 :: y -> (2 <= List.length y)%nat.

(* None of these bytes is in the text. *)
Definition without (stop t : list byte) : Prop := forall b, In b stop -> ~ In b t.

(* The byte that decode names. *)
Definition named (e : decode_error) : byte :=
  match e with DByte b => b | DHexSequence b => b end.
