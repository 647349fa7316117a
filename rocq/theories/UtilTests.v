(* The crate's own unit tests of the utilities, /repo/src/util/test, carried out in
   the model.  Not part of any proof: they compare the model with what the authors
   of the crate expect. *)

From Coq Require Import NArith List Bool Arith String.
From Verif Require Import Bytes UtilModel.
Import ListNotations.
Local Open Scope N_scope.
Local Open Scope list_scope.

(* The loops `for (n, (name, value)) in iterator.enumerate()` of the tests compare
   the n-th item with the n-th expected one, if there is such an item; they do
   not notice missing items.  /repo/src/util/test/query_iterator.rs:25-57 *)
Definition agree (all : list (list byte * option (list byte)) * list iter_error * next_result)
                 (expected : list (list byte * option (list byte))) : Prop :=
  let items := fst (fst all) in
  firstn (List.length expected) items = firstn (List.length items) expected.
Definition errors (all : list (list byte * option (list byte)) * list iter_error * next_result)
  : list iter_error := snd (fst all).

(* /repo/src/util/test/decode.rs:21-26 *)
Example decode_decode_complex : decode (bs "the%20quick+brown%20fox+jumped%20over+the%20lazy+dog%2E") = DOk (bs "the quick brown fox jumped over the lazy dog.").
Proof. vm_compute. reflexivity. Qed.

(* /repo/src/util/test/decode.rs:29-34 *)
Example decode_ending_hex : decode (bs "X%20") = DOk (bs "X ").
Proof. vm_compute. reflexivity. Qed.

(* /repo/src/util/test/decode.rs:37-55 *)
Example decode_ending_hex_error :
  decode (bs "X%") = DErr (DHexSequence 37) /\
  decode (bs "X%2") = DErr (DHexSequence 50) /\
  decode (bs "X%2G") = DErr (DHexSequence 71).
Proof. vm_compute. repeat split. Qed.

(* /repo/src/util/test/decode.rs:58-63 *)
Example decode_ending_plus : decode (bs "X+") = DOk (bs "X ").
Proof. vm_compute. reflexivity. Qed.

(* /repo/src/util/test/decode.rs:66-71 *)
Example decode_middle_hex : decode (bs "X%20X") = DOk (bs "X X").
Proof. vm_compute. reflexivity. Qed.

(* /repo/src/util/test/decode.rs:74-80 *)
Example decode_middle_hex_error :
  decode (bs "X%2GX") = DErr (DHexSequence 71).
Proof. vm_compute. repeat split. Qed.

(* /repo/src/util/test/decode.rs:83-88 *)
Example decode_middle_plus : decode (bs "X+X") = DOk (bs "X X").
Proof. vm_compute. reflexivity. Qed.

(* /repo/src/util/test/decode.rs:91-96 *)
Example decode_no_decoding : decode (bs "string") = DOk (bs "string").
Proof. vm_compute. reflexivity. Qed.

(* /repo/src/util/test/decode.rs:99-107 *)
Example decode_non_visible_7bit_error :
  let all := filter (fun x => negb (is_visible_7bit x)) (map N.of_nat (seq 0 255)) in
  map (fun b => decode [b]) all = map (fun b => DErr (DByte b)) all.
Proof. vm_compute. reflexivity. Qed.

(* /repo/src/util/test/decode.rs:110-117 *)
Example decode_starting_hex : decode (bs "%21") = DOk (bs "!").
Proof. vm_compute. reflexivity. Qed.

(* /repo/src/util/test/decode.rs:120-126 *)
Example decode_starting_hex_error1 :
  decode (bs "%") = DErr (DHexSequence 37).
Proof. vm_compute. repeat split. Qed.

(* /repo/src/util/test/decode.rs:129-135 *)
Example decode_starting_hex_error2 :
  decode (bs "%2") = DErr (DHexSequence 50).
Proof. vm_compute. repeat split. Qed.

(* /repo/src/util/test/decode.rs:138-144 *)
Example decode_starting_hex_error3 :
  decode (bs "%2G") = DErr (DHexSequence 71).
Proof. vm_compute. repeat split. Qed.

(* /repo/src/util/test/decode.rs:147-152 *)
Example decode_starting_plus : decode (bs "+") = DOk (bs " ").
Proof. vm_compute. reflexivity. Qed.

(* /repo/src/util/test/decode.rs:155-164; the filters of the test leave no byte *)
Example decode_visible_7bit :
  let all := filter (fun x => x =? 43) (filter (fun x => x =? 37)
               (filter is_visible_7bit (map N.of_nat (seq 0 128)))) in
  map (fun b => decode [b]) all = map (fun b => DOk [b]) all.
Proof. vm_compute. reflexivity. Qed.

(* /repo/src/util/test/field_iterator.rs:21-33 *)
Example field_iterator_name_invalid_byte_error :
  errors (field_all (bs "compr" ++ [13] ++ bs "ression=bzip") 59 false) = [EName 13].
Proof. vm_compute. reflexivity. Qed.

(* /repo/src/util/test/field_iterator.rs:37-49 *)
Example field_iterator_value_ending_quote_missing_error :
  errors (field_all (bs "compression=""bzip") 59 false) = [EValue 112].
Proof. vm_compute. reflexivity. Qed.

(* /repo/src/util/test/field_iterator.rs:53-65 *)
Example field_iterator_value_invalid_byte_error :
  errors (field_all (bs "compression=bz" ++ [13] ++ bs "ip") 59 false) = [EValue 13].
Proof. vm_compute. reflexivity. Qed.

(* /repo/src/util/test/field_iterator.rs:69-81 *)
Example field_iterator_value_invalid_quote_error :
  errors (field_all (bs "compression=bzip""") 59 false) = [EValue 34].
Proof. vm_compute. reflexivity. Qed.

(* /repo/src/util/test/field_iterator.rs:84-112 *)
Example field_iterator_normalize :
  agree (field_all (bs "COMPRESSION=bzip; BOUNDARY=longrandomboundarystring") 59 true)
    [(bs "compression", Some (bs "bzip"));
     (bs "boundary", Some (bs "longrandomboundarystring"))].
Proof. vm_compute. reflexivity. Qed.

(* /repo/src/util/test/field_iterator.rs:115-143 *)
Example field_iterator_no_normalize :
  agree (field_all (bs "Compression=Bzip; Boundary=Longrandomboundarystring") 59 false)
    [(bs "Compression", Some (bs "Bzip"));
     (bs "Boundary", Some (bs "Longrandomboundarystring"))].
Proof. vm_compute. reflexivity. Qed.

(* /repo/src/util/test/field_iterator.rs:146-184 *)
Example field_iterator_no_value :
  agree (field_all (bs "compression=bzip; field2; field3") 59 false)
    [(bs "compression", Some (bs "bzip"));
     (bs "field2", None);
     (bs "field3", None)].
Proof. vm_compute. reflexivity. Qed.

(* /repo/src/util/test/field_iterator.rs:187-215 *)
Example field_iterator_quoted :
  agree (field_all (bs "compression=bzip; content-type=""application\""/\""json""") 59 false)
    [(bs "compression", Some (bs "bzip"));
     (bs "content-type", Some (bs "application""/""json"))].
Proof. vm_compute. reflexivity. Qed.

(* /repo/src/util/test/field_iterator.rs:218-236 *)
Example field_iterator_value_error :
  errors (field_all (bs "compression=bzip" ++ [13]) 59 false) = [EValue 13].
Proof. vm_compute. reflexivity. Qed.

(* /repo/src/util/test/query_iterator.rs:20-58.  The test passes, but only because
   there is no item at all (C48). *)
Example query_iterator_hex :
  agree (query_all (bs "field%201=value%201&field%202=value%202&field%203"))
    [(bs "field 1", Some (bs "value 1")); (bs "field 2", Some (bs "value 2")); (bs "field 3", None)] /\
  fst (fst (query_all (bs "field%201=value%201&field%202=value%202&field%203"))) = [].
Proof. vm_compute. split; reflexivity. Qed.

(* /repo/src/util/test/query_iterator.rs:61-79 *)
Example query_iterator_hex_name_error : errors (query_all (bs "field%2Q")) = [EName 81].
Proof. vm_compute. reflexivity. Qed.

(* /repo/src/util/test/query_iterator.rs:82-100 *)
Example query_iterator_hex_value_error : errors (query_all (bs "field=value%2Q")) = [EValue 81].
Proof. vm_compute. reflexivity. Qed.

(* /repo/src/util/test/query_iterator.rs:103-141 *)
Example query_iterator_no_hex :
  agree (query_all (bs "field1=value1&field2=value2&field3"))
    [(bs "field1", Some (bs "value1")); (bs "field2", Some (bs "value2")); (bs "field3", None)].
Proof. vm_compute. reflexivity. Qed.
