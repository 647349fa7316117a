(* Specification: what is reported of an arbitrary stream of bytes read as
   HTTP/2 frames, whatever the frames contain.  Complete frames one after the
   other, then what is known of the last, incomplete one. *)

From Coq Require Import NArith List Bool Arith.
From Verif Require Import Bytes Http2Model Http2Spec.
Import ListNotations.
Local Open Scope N_scope.

(* The beginning of a stream. *)
Inductive part :=
| Whole (e : list fevent) (rest : list byte)  (* a frame; what follows it *)
| Part (e : list fevent)                      (* a frame still incomplete *)
| Short (e : list fevent).                    (* the length of the frame is too
                                                 small for what must be in it *)

(* Observations made before. *)
Definition say (e : list fevent) (q : part) : part :=
  match q with
  | Whole e' r => Whole (e ++ e') r
  | Part e' => Part (e ++ e')
  | Short e' => Short (e ++ e')
  end.

(* Big-endian number. *)
Definition num (s : list byte) : N := fold_left (fun n b => n * 256 + b) s 0.

(* The number in n bytes from the given offset. *)
Definition field (s : list byte) (from n : nat) : N := num (firstn n (skipn from s)).

(* k bytes of fixed fields. *)
Definition fixed (k : nat) (s : list byte) (use : list byte -> list byte -> part) : part :=
  if (List.length s <? k)%nat then Part [] else use (firstn k s) (skipn k s).

(* z bytes of padding. *)
Definition padding (z : N) (s : list byte) : part :=
  if N.of_nat (List.length s) <? z then Part [] else Whole [] (skipn (N.to_nat z) s).

(* Data and z bytes of padding, together len bytes.  Nothing is reported before
   there is another byte. *)
Definition data (k : dkind) (len z : N) (s : list byte) : part :=
  match s with
  | [] => Part []
  | _ =>
      if len <? z then Short []
      else if N.of_nat (List.length s) <? len - z then Part (map (FByte k) s)
      else let n := N.to_nat (len - z) in
           say (item k (firstn n s)) (padding z (skipn n s))
  end.

(* The pad length, if there is one. *)
Definition pad_length (padded : bool) (len : N) (s : list byte)
           (use : N -> N -> list byte -> part) : part :=
  if padded then
    match s with
    | [] => Part []
    | z :: s' => if len =? 0 then Short [] else use (len - 1) z s'
    end
  else use len 0 s.

(* The contents of a frame.  PRIORITY, RST_STREAM, SETTINGS and WINDOW_UPDATE
   frames are taken to have one fixed size, whatever their length says; frames
   of unknown type are taken to be padded if that flag is set. *)
Definition contents (len t f : N) (s : list byte) : part :=
  match t with
  | 0 => pad_length (flag_padded f) len s (data KData)
  | 1 =>
      pad_length (flag_padded f) len s (fun len z s =>
      if flag_priority f then
        fixed 5 s (fun x s =>
        if len <? 5 then Short []
        else say [FEv (EHeaders (2 ^ 31 <=? field x 0 4) (field x 0 4 mod 2 ^ 31) (field x 4 1))]
                 (data KFragment (len - 5) z s))
      else if flag_padded f then say [FEv (EHeaders false 0 0)] (data KFragment len z s)
      else data KFragment len z s)
  | 2 => fixed 5 s (fun x s =>
      Whole [FEv (EPriority (2 ^ 31 <=? field x 0 4) (field x 0 4 mod 2 ^ 31) (field x 4 1))] s)
  | 3 => fixed 4 s (fun x s => Whole [FEv (ERstStream (num x))] s)
  | 4 => fixed 6 s (fun x s => Whole [FEv (ESettings (field x 0 2) (field x 2 4))] s)
  | 5 =>
      pad_length (flag_padded f) len s (fun len z s =>
      fixed 4 s (fun x s =>
      match s with
      | [] => Part []
      | _ => if len <? 4 then Short []
             else say [FEv (EPushPromise (num x))] (data KFragment (len - 4) z s)
      end))
  | 6 => data KPing len 0 s
  | 7 => fixed 8 s (fun x s =>
      if len <? 8 then Short []
      else say [FEv (EGoAway (field x 0 4 mod 2 ^ 31) (field x 4 4))]
               (if len =? 8 then Whole [] s else data KDebug (len - 8) 0 s))
  | 8 => fixed 4 s (fun x s => Whole [FEv (EWindowUpdate (num x))] s)
  | 9 => data KFragment len 0 s
  | _ => pad_length (flag_padded f) len s (data KUnsupported)
  end.

(* The first frame of a stream. *)
Definition one_frame (s : list byte) : part :=
  fixed 9 s (fun x s =>
  say [FEv (EFrameFormat (field x 0 3) (field x 3 1) (field x 4 1) (field x 5 4 mod 2 ^ 31))]
      (contents (field x 0 3) (field x 3 1) (field x 4 1) s)).

(* All observations; the incomplete frame at the end, or None if a frame was too
   short.  The first argument bounds the number of frames. *)
Fixpoint frames (n : nat) (s : list byte) : list fevent * option (list byte) :=
  match n with
  | O => ([], Some s)
  | S n' =>
      match one_frame s with
      | Whole e r => (e ++ fst (frames n' r), snd (frames n' r))
      | Part e => (e, Some s)
      | Short e => (e, None)
      end
  end.

Definition decoded (s : list byte) : list fevent * option (list byte) :=
  frames (S (List.length s)) s.

(* An incomplete frame that ends strictly inside the stream identifier of its
   header, the last-stream-id of a GOAWAY frame or the value of a setting. *)
Definition inside (r : list byte) : bool :=
  let k := List.length r in
  let t := field r 3 1 in
  ((5 <? k) && (k <? 9) || (t =? 7)%N && (9 <? k) && (k <? 13) ||
   (t =? 4)%N && (11 <? k) && (k <? 15))%nat.

(* No piece ends at such a place. *)
Definition whole_fields (segs : list (list byte)) : Prop :=
  forall before after r, segs = before ++ after ->
    snd (decoded (List.concat before)) = Some r -> inside r = false.
