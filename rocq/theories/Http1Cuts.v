(* How a head has to be understood, wherever the stream is cut into pieces.
   Vocabulary of C68; the readers are those of Http1Reader.v.

   A message may begin with H in two ways: with a method or with "HTTP/".  When
   the piece in which the message begins has fewer than nine bytes of it, the
   letters that a method has in common with "HTTP" are lost (C08). *)

From Coq Require Import NArith List Bool Arith String.
From Verif Require Import Bytes Http1Model Http1Spec Http1Reader.
Import ListNotations.
Local Open Scope N_scope.

(* s without the letters at its beginning that it has in common with w. *)
Fixpoint without (w s : list byte) : list byte :=
  match w, s with
  | c :: w', b :: s' => if b =? c then without w' s' else s
  | _, _ => s
  end.

(* A head that begins right here; enough: at least nine bytes of it are in the
   piece in which it begins. *)
Definition head_from (enough : bool) (m : list byte) : list fevent * reading :=
  if begins (bs "HTTP/") m then status_line [] (skipn 5 m)
  else if begins m (bs "HTTP/") then ([], Partial (detecting m))
  else request_line [] (if enough then m else without (bs "HTTP") m).

(* What there is of the message in the piece in which it begins, that is, the
   first one that is not all white space. *)
Fixpoint first_part (segs : list (list byte)) : list byte :=
  match segs with
  | [] => []
  | seg :: more => match strip seg with [] => first_part more | m => m end
  end.

(* After init_head. *)
Definition read_cut_head (segs : list (list byte)) : list fevent * reading :=
  head_from (9 <=? List.length (first_part segs))%nat (strip (List.concat segs)).

(* From new(): white space is not skipped (C31), and an empty first piece is read
   out of bounds (C14). *)
Definition read_new_head (segs : list (list byte)) : list fevent * reading :=
  match hd [] segs with
  | [] => ([], Crash)
  | seg => head_from (9 <=? List.length seg)%nat (List.concat segs)
  end.
