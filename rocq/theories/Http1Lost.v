(* What a stream is told to contain and the handler has not been told when an
   error is reported: at most bytes of one item, and these are the bytes in
   front of the wrong byte, in the same piece. *)

From Coq Require Import NArith List.
From Verif Require Import Bytes Http1Model Http1Spec Http1Reader.
Import ListNotations.
Local Open Scope N_scope.

(* The pieces segs are read up to a wrong byte, and the parser, that had counted
   n bytes before, counts the bytes up to and including the wrong one.  The
   events L of the stream are those seen by the handler (log), followed by the
   bytes d of an item of kind k.  Unless there are none, they are in one piece,
   immediately before the wrong byte b.  An error e about a boundary loses
   nothing. *)
Definition about_boundary (e : perror) : bool :=
  match e with ErMultipartBoundary _ => true | _ => false end.
Definition loses (e : perror) (L : list fevent) (n : N) (segs : list (list byte)) (p' : parser) (log : list event)
  : Prop :=
  exists k d, L = flat log ++ map (FByte k) d /\
    (d = [] \/
     about_boundary e = false /\
     exists before x b y after,
       segs = before ++ (x ++ d ++ b :: y) :: after /\
       byte_count p' = n + N.of_nat (List.length (List.concat before ++ x ++ d ++ [b]))).

(* The stream cut into single bytes. *)
Definition bytewise (s : list byte) : list (list byte) := map (fun b => [b]) s.
