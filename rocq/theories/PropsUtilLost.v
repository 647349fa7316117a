(* FieldIterator: what becomes of quoted values before the end and of incomplete last
   names, in every case: C51.
   Vocabulary: Ahead, Quotes of UtilAhead.v, Fields of UtilSpec.v, field_all of
   UtilModel.v. *)

From Coq Require Import NArith List Bool Arith String Lia.
From Verif Require Import Bytes UtilModel UtilSpec UtilIter UtilAhead UtilLost.
Import ListNotations.
Local Open Scope N_scope.
Local Open Scope list_scope.

(* C51.  A quoted value, then a byte (the delimiter, say), then one that is not the
   delimiter: the fields before it are yielded, and it and all fields after it are
   lost with one error. *)
Theorem C51_quoted_inner : forall norm d t items u i b c r, delimiter d ->
  Ahead norm d t items -> Quotes norm d u i -> ~ ws b -> c <> d ->
  field_all (t ++ u ++ b :: c :: r) d norm = (items, [EValue c], NNone).
Proof. exact quoted_inner. Qed.
Print Assumptions C51_quoted_inner.

Example C51_quoted_inner_case :
  Ahead true 59 (bs "A; b=1;") [(bs "a", None); (bs "b", Some (bs "1"))] /\
  Quotes true 59 (bs " C=""x""") (bs "c", Some (bs "x")) /\
  field_all (bs "A; b=1; C=""x""; d=2") 59 true = ([(bs "a", None); (bs "b", Some (bs "1"))], [EValue 32], NNone).
Proof.
  split; [|split; [|vm_compute; reflexivity]].
  - apply (ah_cons true 59 (bs "A") (bs "a", None)).
    { apply (ff_name true 59 [] (bs "A")); [constructor|]. now apply name_check. }
    apply (ah_cons true 59 (bs " b=1") (bs "b", Some (bs "1"))); [|constructor].
    apply (ff_pair true 59 [32] (bs "b") [] (bs "1")).
    + now apply ws_check.
    + now apply name_check.
    + constructor.
    + now apply plain_check.
    + split; [unfold ws|]; discriminate || (intros [H|H]; discriminate H).
  - apply (quotes true 59 [32] (bs "C") [] (bs "x") (bs "x") []).
    + now apply ws_check.
    + now apply name_check.
    + constructor.
    + change (bs "x") with [120]. apply fq_plain; [unfold value_byte; lia|discriminate|constructor].
    + constructor.
Qed.

(* C51.  Only with a further byte between the quote and the delimiter, as in
   a="x";;b=1, the next fields are yielded. *)
Theorem C51_quoted_then : forall norm d t items u i b r items', delimiter d ->
  Ahead norm d t items -> Quotes norm d u i -> ~ ws b -> Fields norm d r items' ->
  field_all (t ++ u ++ b :: d :: r) d norm = (items ++ i :: items', [], NNone).
Proof. exact quoted_then. Qed.
Print Assumptions C51_quoted_then.

Example C51_quoted_then_case :
  Fields true 59 (bs "b") [(bs "b", None)] /\
  field_all (bs "a=""x"";;b") 59 true = ([(bs "a", Some (bs "x")); (bs "b", None)], [], NNone).
Proof.
  split; [|vm_compute; reflexivity]. apply f_last. apply (fl_name true 59 [] (bs "b")); [constructor| |].
  - now apply name_check.
  - split; [discriminate|]. split; [discriminate|]. unfold upper. cbn. lia.
Qed.

(* C51.  Every last name that ends in '/' or, when normalising, in an upper-case
   letter, is lost, with the white space behind it and without an error. *)
Theorem C51_last_lost : forall norm d t items w n w', delimiter d ->
  Ahead norm d t items -> Forall ws w -> plain_name d n -> n <> [] ->
  last n 0 = 47 \/ (norm = true /\ upper (last n 0)) -> Forall ws w' ->
  field_all (t ++ w ++ n ++ w') d norm = (items, [], NNone).
Proof. exact incomplete_last. Qed.
Print Assumptions C51_last_lost.

Example C51_last_lost_case :
  plain_name 44 (bs "CHUNKED") /\ upper (last (bs "CHUNKED") 0) /\
  field_all (bs "gzip, CHUNKED ") 44 true = ([(bs "gzip", None)], [], NNone).
Proof. split; [now apply name_check|]. split; [split; discriminate|]. vm_compute. reflexivity. Qed.
