(* A form for the examples of C83, and the header field of an uploaded file. *)

From Coq Require Import NArith List Bool Arith String.
From Verif Require Import Bytes Http1Model Http1Spec Http1Wire FormSpec.
Import ListNotations.
Local Open Scope N_scope.
Local Open Scope list_scope.

Definition sample_request : request :=
  Request [] (bs "POST") (bs "/form") (bs "1", bs "1")
    [Header (bs "Host") [32] (bs "example.org") []; content_type (bs "xYz"); Header (bs "Accept") [] (bs "*/*") []].

Definition sample_fields : list (list byte * list byte) :=
  [(bs "user", bs "Ann"); ([97; 34; 92; 59], bs "two" ++ [10] ++ bs "lines"); (bs "empty", [])].

Definition sample_form : list byte :=
  render_request sample_request ++ render_multipart (bs "xYz") (map form_part sample_fields).

Fixpoint cut (n : nat) (k : nat) (l : list byte) : list (list byte) :=
  match k with
  | O => [l]
  | S k => firstn n l :: cut n k (skipn n l)
  end.

(* RFC 7578, 4.2: the parameter "filename" after the parameter "name". *)
Definition file_disposition (n m : list byte) : header :=
  Header (bs "Content-Disposition") [32]
    (bs "form-data; name=" ++ [34] ++ escape n ++ [34] ++ bs "; filename=" ++ [34] ++ escape m ++ [34]) [].

(* A field of a form, or a file with its name and the type of its contents. *)
Inductive control :=
| Field (n d : list byte)
| File (n m kind d : list byte).

Definition control_part (x : control) : part :=
  match x with
  | Field n d => form_part (n, d)
  | File n m kind d => plain_part ([file_disposition n m; Header (bs "Content-Type") [32] kind []], d)
  end.

Definition kind_byte (b : byte) : Prop := 33 <= b <= 126 /\ b <> 34.
Definition wf_control (x : control) : Prop :=
  match x with
  | Field n d => Forall name_byte n /\ tame d = true
  | File n m kind d => Forall name_byte n /\ Forall name_byte m /\ kind <> [] /\ Forall kind_byte kind /\ tame d = true
  end.

Definition sample_controls : list control :=
  [Field (bs "user") (bs "Ann"); File (bs "photo") (bs "me.png") (bs "image/png") [137; 80; 78; 71; 13; 78; 10; 0; 255];
   Field (bs "end") []].
