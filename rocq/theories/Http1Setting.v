(* What happens to a multipart body when no boundary was set: specification. *)

From Coq Require Import NArith List.
From Verif Require Import Bytes Http1Model Http1Spec.
Import ListNotations.
Local Open Scope N_scope.

(* Two hyphens are expected first, and the byte after them is the first to be
   compared with the boundary. *)
Definition without_boundary (s : list byte) : ending :=
  match s with
  | [] => OEos
  | b1 :: s =>
      if negb (b1 =? 45) then OError (ErMultipartBoundary b1) else
      match s with
      | [] => OEos
      | b2 :: s =>
          if negb (b2 =? 45) then OError (ErMultipartBoundary b2) else
          match s with
          | [] => OEos
          | _ => OFault FUnwrapPanic
          end
      end
  end.
