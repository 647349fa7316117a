(* Utilities: expected properties that do not hold: C46, C48, C49, C51, C55. *)

From Coq Require Import NArith List Bool Arith String.
From Verif Require Import Bytes ByteStream UtilModel UtilSpec UtilFacts UtilIter UtilSamples UtilRefute.
Import ListNotations.
Local Open Scope N_scope.
Local Open Scope list_scope.

(* C46.  The String returned by decode is valid UTF-8: false. *)
Theorem C46_utf8_refuted : exists t d, octets t /\ decode t = DOk d /\ ~ Utf8 d.
Proof. exact decode_not_utf8. Qed.
Print Assumptions C46_utf8_refuted.

(* C46.  So are the Strings of the iterators: false. *)
Theorem C46_query_utf8_refuted : exists t n v, octets t /\
  query_all t = ([(n, Some v)], [], NNone) /\ ~ Utf8 v.
Proof. exact query_not_utf8. Qed.
Print Assumptions C46_query_utf8_refuted.

Theorem C46_field_utf8_refuted : exists t n v, octets t /\
  field_all t 59 false = ([(n, Some v)], [], NNone) /\ ~ Utf8 v.
Proof. exact field_not_utf8. Qed.
Print Assumptions C46_field_utf8_refuted.

(* C48.  Percent escapes in names are decoded: false.  The text of the crate's
   own test and documentation. *)
Theorem C48_name_escapes_refuted : exists t, t = bs "field%201=value%201&field%202=value%202&field%203" /\
  Encodes (bs "field%201") (bs "field 1") /\ query_all t = ([], [EName 48], NNone).
Proof. exact query_name_not_decoded. Qed.
Print Assumptions C48_name_escapes_refuted.

(* C49.  A QueryIterator that has returned None returns None for ever: false. *)
Theorem C49_query_fused_refuted : exists t e c' n v e' c'',
  query_next (bs_new t) = (NNone, e, c') /\ query_next c' = (NItem n v, e', c'').
Proof. exact query_not_fused. Qed.
Print Assumptions C49_query_fused_refuted.

(* C51.  A quoted value may be followed by another field: false. *)
Theorem C51_quoted_anywhere_refuted : exists t items, FExpected false 59 t items /\
  field_all t 59 false = ([], [EValue 99], NNone) /\ items <> [].
Proof. exact quoted_not_anywhere. Qed.
Print Assumptions C51_quoted_anywhere_refuted.

(* C51.  Every name is yielded: false, a final name that ends in an upper-case
   letter is lost when normalising. *)
Theorem C51_last_name_refuted : exists n, plain_name 59 n /\ n <> [] /\
  field_all (bs "a; " ++ n) 59 true = ([(bs "a", None)], [], NNone).
Proof. exact last_name_lost. Qed.
Print Assumptions C51_last_name_refuted.

(* C51.  ... and, without normalising, one that ends in a '/'. *)
Theorem C51_last_slash_refuted : exists n, plain_name 59 n /\ n <> [] /\
  field_all (bs "a; " ++ n) 59 false = ([(bs "a", None)], [], NNone).
Proof. exact last_slash_lost. Qed.
Print Assumptions C51_last_slash_refuted.

(* C51.  A quoted value that is followed by a byte which is neither white space
   nor the delimiter is an error: false. *)
Theorem C51_garbage_refuted : exists b, ~ ws b /\ b <> 59 /\
  field_all (bs "a=""b""" ++ [b]) 59 false = ([(bs "a", Some (bs "b"))], [], NNone).
Proof. exact quoted_garbage. Qed.
Print Assumptions C51_garbage_refuted.

(* C55.  FieldIterator::next does not panic: false, the byte 255 is outside the
   tables of byte.rs. *)
Theorem C55_panic_refuted : exists t, octets t /\ field_all t 59 false = ([], [], NPanic).
Proof. exact field_panics. Qed.
Print Assumptions C55_panic_refuted.
