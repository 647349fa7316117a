(* Chunk extensions with the white space RFC 9112 has in them. *)

From Coq Require Import NArith List Bool String.
From Verif Require Import Bytes Http1Spec Http1Protocol Http1Wire.
Import ListNotations.
Local Open Scope N_scope.
Local Open Scope list_scope.

(* RFC 9112, 7.1.1 (and RFC 7230 with its errata): chunk-ext =
   *( BWS ";" BWS chunk-ext-name [ BWS "=" BWS chunk-ext-val ] ), BWS = *( SP / HTAB ).
   before is the white space before the semicolon, between that before the equal sign. *)
Definition spaced (before between : list byte) (x : chunk_ext) : list byte :=
  before ++ [59] ++ x_pad x ++ x_name x ++
  match x_value x with None => [] | Some (w, v) => between ++ [61] ++ w ++ v end.

(* A chunk whose extension is written e. *)
Definition chunk_with (s e d : list byte) : list byte := s ++ e ++ crlf ++ d ++ crlf.

(* Beginnings of sizes: nothing, 0, or up to eight digits the first of which is not 0. *)
Definition size_begun (s : list byte) : Prop :=
  s = [] \/ s = [48] \/ ((List.length s <= 8)%nat /\ Forall hexdigit s /\ hd 48 s <> 48).
