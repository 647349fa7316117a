(* Chunk sizes as RFC 7230 has them. *)

From Coq Require Import NArith List Bool.
From Verif Require Import Bytes Http1Wire.
Import ListNotations.
Local Open Scope N_scope.

(* RFC 7230, 4.1: chunk-size = 1*HEXDIG, last-chunk = 1*("0") ... *)
Definition chunk_size (s : list byte) : Prop := s <> [] /\ Forall hexdigit s.

(* Sizes the parser takes for chunks with data: at most eight digits, the first of which
   is not 0. *)
Definition short (s : list byte) : Prop := (List.length s <= 8)%nat /\ hd 48 s <> 48.

(* After the digits u the digit b is one too many. *)
Definition one_more (u : list byte) (b : byte) : Prop :=
  hexdigit b /\ (u = [48] \/ (List.length u = 8%nat /\ Forall hexdigit u /\ hd 48 u <> 48)).
