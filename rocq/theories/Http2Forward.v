(* A program that passes HTTP/2 frames on: it writes down what its handler is
   told, frame by frame.  Vocabulary of C80; independent of the parser model
   (only the type of observations is shared). *)

From Coq Require Import NArith List Bool Arith.
From Verif Require Import Bytes Http2Model Http2Spec.
Import ListNotations.
Local Open Scope N_scope.

(* What is written for one observation inside a frame with flags f.  (on_headers
   is also called, with zeros, for padded HEADERS frames without priority.) *)
Definition text (f : N) (ev : fevent) : list byte :=
  match ev with
  | FByte _ b => [b]
  | FEnd _ => []
  | FEv (EHeaders x s w) => if flag_priority f then be32 (bit31 x s) ++ [w] else []
  | FEv (EPriority x s w) => be32 (bit31 x s) ++ [w]
  | FEv (ERstStream c) => be32 c
  | FEv (ESettings i v) => be16 i ++ be32 v
  | FEv (EPushPromise s) => be32 s
  | FEv (EGoAway s c) => be32 s ++ be32 c
  | FEv (EWindowUpdate n) => be32 n
  | FEv _ => []
  end.

Definition zeros (n : N) : list byte := repeat 0 (N.to_nat n).

(* The payload of a frame with the reported length, type and flags.  Padding is
   not reported; its length is what is missing. *)
Definition payload_written (len t f : N) (l : list fevent) : list byte :=
  let d := flat_map (text f) l in
  if has_pad t f
  then let z := len - 1 - N.of_nat (List.length d) in [z] ++ d ++ zeros z
  else d.

(* What is told before the next frame header. *)
Fixpoint this_frame (l : list fevent) : list fevent :=
  match l with
  | [] => []
  | FEv (EFrameFormat _ _ _ _) :: _ => []
  | ev :: l' => ev :: this_frame l'
  end.

Fixpoint frames_written (l : list fevent) : list byte :=
  match l with
  | [] => []
  | FEv (EFrameFormat len t f sid) :: l' =>
      be24 len ++ [t; f] ++ be32 sid ++ payload_written len t f (this_frame l') ++ frames_written l'
  | _ :: l' => frames_written l'
  end.

(* Frames with what is not reported removed: padding is zero, so are the
   reserved bits of the header and of GOAWAY. *)
Definition zero_pad (pad : option (list byte)) : option (list byte) :=
  match pad with Some z => Some (map (fun _ => 0) z) | None => None end.
Definition zero_body (b : body) : body :=
  match b with
  | BData pad d => BData (zero_pad pad) d
  | BHeaders pad prio d => BHeaders (zero_pad pad) prio d
  | BPushPromise pad rsv s d => BPushPromise (zero_pad pad) rsv s d
  | BGoAway _ s c d => BGoAway false s c d
  | BUnknown t pad d => BUnknown t (zero_pad pad) d
  | _ => b
  end.
Definition zeroed (f : frame) : frame :=
  Frame (f_flags f) false (f_stream f) (zero_body (f_body f)).
