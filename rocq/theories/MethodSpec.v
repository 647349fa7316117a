(* Requests with any method that RFC 7230 allows. *)

From Coq Require Import NArith List Bool.
From Verif Require Import Bytes Http1Wire.
Import ListNotations.
Local Open Scope N_scope.

(* A request with another method. *)
Definition with_method (q : request) (m : list byte) : request :=
  Request (q_blank q) m (q_url q) (q_version q) (q_headers q).

Definition capital (b : byte) : Prop := 65 <= b <= 90.
