(* A program for the examples of C78. *)

From Coq Require Import NArith List Bool Arith String.
From Verif Require Import Bytes Http1Model Http1Spec Http1Reader Http1Program.
Import ListNotations.
Local Open Scope N_scope.

Definition fevent_dec (a b : fevent) : {a = b} + {a <> b}.
Proof. repeat decide equality. Defined.

(* l ends with a head whose last field is n: v *)
Definition last_field (n v : string) (l : list fevent) : bool :=
  let w := map (FByte KHeaderName) (bs n) ++ map (FByte KHeaderValue) (bs v) ++ [FEv EHeadersFinished] in
  if list_eq_dec fevent_dec (skipn (List.length l - List.length w) l) w then true else false.

(* A head that says so is followed by a body; after a body comes a head. *)
Definition sample_program : program := fun l =>
  if last_field "transfer-encoding" "chunked" l then Some AChunked
  else if last_field "content-type" "multipart/mixed; boundary=b" l then Some (AMultipart (bs "b"))
  else if last_field "content-length" "3" l then Some (AUrlEncoded 3)
  else if last_field "connection" "close" l then None
  else Some AHead.

Definition line (s : string) : list byte := bs s ++ [13; 10].

(* Three messages with bodies and one without. *)
Definition sample_stream : list byte :=
  line "POST /a HTTP/1.1" ++ line "Transfer-Encoding: chunked" ++ line "" ++
  line "2" ++ line "xy" ++ line "0" ++ line "" ++
  line "POST /b HTTP/1.1" ++ line "Content-Length: 3" ++ line "" ++ bs "k=v" ++
  line "PUT /c HTTP/1.1" ++ line "Content-Type: multipart/mixed; boundary=b" ++ line "" ++
  line "--b" ++ line "" ++ line "z" ++ line "--b--" ++
  line "GET /d HTTP/1.1" ++ line "Connection: close" ++ line "".
