(* A program that puts together what is sent on the streams of an HTTP/2
   connection.  Vocabulary of C85. *)

From Coq Require Import NArith List Bool Arith.
From Verif Require Import Bytes Http2Model Http2Spec.
Import ListNotations.
Local Open Scope N_scope.

(* What is said on a stream: a header block, a promise with its header block,
   data, the end of the stream. *)
Inductive part :=
| PHeaders (block : list byte)
| PPromise (promised : N) (block : list byte)
| PData (d : list byte)
| PEnd.

(* ------------------------------------------------------------------ *)
(* The sender                                                           *)
(* ------------------------------------------------------------------ *)

(* Header blocks are sent as a HEADERS or PUSH_PROMISE frame and any number of
   CONTINUATION frames, without other frames in between (RFC 7540, 4.3, 6.2, 6.6,
   6.10).  MOther: a frame of another type. *)
Inductive message :=
| MData (stream : N) (pad : option (list byte)) (d : list byte) (fin : bool)
| MHeaders (stream : N) (pad : option (list byte)) (prio : option priority)
    (d : list byte) (ds : list (list byte)) (fin : bool)
| MPromise (stream : N) (pad : option (list byte)) (promised : N) (d : list byte) (ds : list (list byte))
| MOther (f : frame).

(* Flags: END_STREAM, END_HEADERS, PADDED, PRIORITY (RFC 7540, 6.1, 6.2). *)
Definition flags_of (fin last padded prio : bool) : N :=
  (if fin then 1 else 0) + (if last then 4 else 0) + (if padded then 8 else 0) + (if prio then 32 else 0).

Definition none {X} (l : list X) : bool := match l with [] => true | _ => false end.

Fixpoint continuation (s : N) (ds : list (list byte)) : list frame :=
  match ds with
  | [] => []
  | d :: ds => Frame (flags_of false (none ds) false false) false s (BContinuation d) :: continuation s ds
  end.

Definition frames_of (m : message) : list frame :=
  match m with
  | MData s pad d fin => [Frame (flags_of fin false (is_some pad) false) false s (BData pad d)]
  | MHeaders s pad prio d ds fin =>
      Frame (flags_of fin (none ds) (is_some pad) (is_some prio)) false s (BHeaders pad prio d) :: continuation s ds
  | MPromise s pad q d ds =>
      Frame (flags_of false (none ds) (is_some pad) false) false s (BPushPromise pad false q d) :: continuation s ds
  | MOther f => [f]
  end.

(* Values in range; MOther is none of the frames that are put together. *)
Definition wf_message (m : message) : Prop :=
  Forall wf_frame (frames_of m) /\
  match m with
  | MOther f => match f_body f with
                | BData _ _ | BHeaders _ _ _ | BPushPromise _ _ _ _ | BContinuation _ => False
                | _ => True
                end
  | _ => True
  end.

Definition says (m : message) : list (N * part) :=
  match m with
  | MData s _ d fin => (s, PData d) :: if fin then [(s, PEnd)] else []
  | MHeaders s _ _ d ds fin => (s, PHeaders (d ++ List.concat ds)) :: if fin then [(s, PEnd)] else []
  | MPromise s _ q d ds => [(s, PPromise q (d ++ List.concat ds))]
  | MOther _ => []
  end.

(* ------------------------------------------------------------------ *)
(* The receiver                                                         *)
(* ------------------------------------------------------------------ *)

(* It remembers the stream, whether it ends, the promise if there is one, and what
   it has got of the data or header block; of the last frame, whether the header
   block ends. *)
Record hearing := Hearing {
  on : N; ends : bool; promise : option N; so_far : list byte; block_ends : bool;
  heard : list (N * part)
}.

Definition end_of (a : hearing) : list (N * part) := if ends a then [(on a, PEnd)] else [].

Definition hear (a : hearing) (e : fevent) : hearing :=
  match e with
  | FEv (EFrameFormat _ t fl s) =>
      if t =? 9 then Hearing (on a) (ends a) (promise a) (so_far a) (N.testbit fl 2) (heard a)
      else Hearing s (((t =? 0) || (t =? 1)) && N.testbit fl 0) None [] (N.testbit fl 2) (heard a)
  | FEv (EPushPromise q) => Hearing (on a) (ends a) (Some q) (so_far a) (block_ends a) (heard a)
  | FByte KData b | FByte KFragment b =>
      Hearing (on a) (ends a) (promise a) (so_far a ++ [b]) (block_ends a) (heard a)
  | FEnd KData =>
      Hearing (on a) (ends a) (promise a) [] (block_ends a) (heard a ++ (on a, PData (so_far a)) :: end_of a)
  | FEnd KFragment =>
      if block_ends a then
        Hearing (on a) (ends a) None [] true
          (heard a ++ (on a, match promise a with Some q => PPromise q (so_far a) | None => PHeaders (so_far a) end)
                      :: end_of a)
      else a
  | _ => a
  end.

Definition put_together (l : list fevent) : list (N * part) :=
  heard (fold_left hear l (Hearing 0 false None [] false [])).

(* The data of one stream. *)
Definition data_on (s : N) (l : list (N * part)) : list byte :=
  flat_map (fun x => match snd x with PData d => if fst x =? s then d else [] | _ => [] end) l.
