(* Multipart bodies as RFC 2046 frames them. *)

From Coq Require Import NArith List Bool String.
From Verif Require Import Bytes Http1Spec.
Import ListNotations.
Local Open Scope N_scope.
Local Open Scope list_scope.

(* RFC 2046, 5.1.1: transport-padding := *LWSP-char *)
Definition transport_padding (w : list byte) : Prop := Forall (fun b => b = 32 \/ b = 9) w.

(* RFC 2046, 5.1.1: multipart-body := [preamble CRLF] dash-boundary transport-padding CRLF
   body-part ...; pre is None or the preamble, pad the padding behind the first boundary,
   rest what follows the CRLF behind it. *)
Definition framed (bd : list byte) (pre : option (list byte)) (pad rest : list byte) : list byte :=
  match pre with None => [] | Some t => t ++ crlf end ++ bs "--" ++ bd ++ pad ++ crlf ++ rest.
