(* The programs in /repo/examples about the utilities, carried out in the
   model.  (The one about heads is in ExampleModel.v and PropsExample.v.) *)

From Coq Require Import NArith List Bool Arith String.
From Verif Require Import Bytes UtilModel UtilSpec.
Import ListNotations.
Local Open Scope N_scope.
Local Open Scope list_scope.

(* /repo/examples/http_decoding_url_encoded_data.md:8-24 *)
Example doc_decode :
  decode (bs "The%20quick%20brown%20fox%20jumped%20over%20the%20lazy%20dog.") =
  DOk (bs "The quick brown fox jumped over the lazy dog.").
Proof. vm_compute. reflexivity. Qed.

(* /repo/examples/http_parsing_header_fields.md:12-44 *)
Example doc_field :
  field_all (bs "form/multipart; boundary=" ++ [34] ++ bs "randomlongboundary" ++ [34]) 59 true =
  ([(bs "form/multipart", None); (bs "boundary", Some (bs "randomlongboundary"))], [], NNone).
Proof. vm_compute. reflexivity. Qed.

(* /repo/examples/http_parsing_header_fields.md:48-82: the byte of the error is
   the last one, y. *)
Example doc_field_error :
  field_all (bs "form/multipart; boundary=" ++ [34] ++ bs "randomlongboundary") 59 true =
  ([(bs "form/multipart", None)], [EValue 121], NNone).
Proof. vm_compute. reflexivity. Qed.

(* /repo/examples/http_parsing_query_strings.md:12-54 *)
Example doc_query :
  query_all (bs "field1=value1&field2=value2&field3") =
  ([(bs "field1", Some (bs "value1")); (bs "field2", Some (bs "value2")); (bs "field3", None)], [], NNone).
Proof. vm_compute. reflexivity. Qed.

(* /repo/examples/http_parsing_query_strings.md:58-101 *)
Example doc_query_error :
  query_all (bs "field1=value1&field2=value2&field3" ++ [0]) =
  ([(bs "field1", Some (bs "value1")); (bs "field2", Some (bs "value2"))], [EName 0], NNone).
Proof. vm_compute. reflexivity. Qed.
