(* Messages used in the examples of PropsHttp1Round.v. *)

From Coq Require Import NArith List Bool Arith String.
From Verif Require Import Bytes Http1Model Http1Spec Http1Protocol Http1Wire.
Import ListNotations.
Local Open Scope N_scope.

(* Checks the conditions of Http1Wire.v on a given message. *)
Ltac wf_tac :=
  repeat match goal with
  | |- _ /\ _ => split
  | |- Forall _ _ => constructor
  | |- _ = _ => reflexivity
  | |- _ <> _ => discriminate
  | |- _ \/ _ => (left; solve [wf_tac]) || (right; solve [wf_tac])
  | |- (_ <= _)%nat => vm_compute; repeat constructor
  | |- _ <= _ => discriminate
  | |- True => exact I
  | |- _ => progress hnf
  end.


Definition sample_header : header :=
  Header (bs "X-Name") (bs " ") (bs "a;" ++ [34] ++ bs "q\z" ++ [34] ++ bs " b") [(9, bs "more")].

Definition sample_request : request :=
  Request crlf (bs "HEAD") (bs "/a?b") (bs "1", bs "10") [sample_header; Header (bs "Host") [] (bs "h") []].

Definition sample_response : response :=
  Response [] (bs "999", bs "1") (bs "404") (bs "Not Found") [sample_header].

Definition sample_chunk : chunk :=
  Chunk (bs "1a")
        [Ext (bs " ") (bs "Key") (Some ([], [34] ++ bs "v;\" ++ [34] ++ [34])); Ext [] (bs "flag") None]
        (bs "abc" ++ crlf ++ bs "0" ++ crlf ++ crlf ++ bs "0123456789abcdef").

Definition sample_part : part := Part [sample_header] (bs "x" ++ [13] ++ bs "--bx" ++ [10]) None.

Definition sample_length_part : part :=
  Part [sample_header] (crlf ++ bs "--b" ++ crlf) (Some 7).

Definition knows_seven : handler := Handler (fun _ _ => false) (fun _ => Some 7).
