(* Specification: what is reported of an arbitrary stream of bytes read as
   HTTP/2 frames, for every build and wherever the stream is cut into pieces.
   An extension of Http2Any.v: a length that becomes too small is an overflow
   in a checked build and wraps around in an unchecked one, and three fields
   are not read correctly if a piece ends inside them.  It also says which state
   stands for the byte expected next. *)

From Coq Require Import NArith List Bool Arith.
From Verif Require Import Bytes Http2Model Http2Spec Http2Any.
Import ListNotations.
Local Open Scope N_scope.

(* Where the pieces end: how many bytes of the stream are left there. *)
Fixpoint ends (segs : list (list byte)) : list nat :=
  match segs with
  | [] => []
  | _ :: more => List.length (List.concat more) :: ends more
  end.

Definition cut_at (segs : list (list byte)) (left : nat) : bool := existsb (Nat.eqb left) (ends segs).

(* A piece ends strictly between byte i and byte j of the rest s of a stream. *)
Definition split (cut : nat -> bool) (s : list byte) (i j : nat) : bool :=
  existsb (fun k => cut (List.length s - k)%nat) (seq (S i) (j - i - 1)).

(* The beginning of a stream. *)
Inductive got :=
| Frame (e : list fevent) (rest : list byte)  (* a frame; what follows it *)
| Awaits (at_ : pstate) (e : list fevent)     (* a frame still incomplete; the next byte
                                                 is expected in the state at_ *)
| Overflow (e : list fevent).

(* Observations made before. *)
Definition saying (e : list fevent) (q : got) : got :=
  match q with
  | Frame e' r => Frame (e ++ e') r
  | Awaits a e' => Awaits a (e ++ e')
  | Overflow e' => Overflow (e ++ e')
  end.

(* Fixed fields, one byte in each of the states. *)
Definition fields (ats : list pstate) (s : list byte) (use : list byte -> list byte -> got) : got :=
  match nth_error ats (List.length s) with
  | Some a => Awaits a []
  | None => use (firstn (List.length ats) s) (skipn (List.length ats) s)
  end.

(* k bytes less of a 24-bit length. *)
Definition less (chk : bool) (len k : N) (use : N -> got) : got :=
  if k <=? len then use (len - k)
  else if chk then Overflow [] else use (2 ^ 24 + len - k).

(* z bytes of padding. *)
Definition pad_bytes (z : N) (s : list byte) : got :=
  if N.of_nat (List.length s) <? z then Awaits StFramePadding [] else Frame [] (skipn (N.to_nat z) s).

(* Data and z bytes of padding, together len bytes.  Nothing is reported before
   there is another byte. *)
Definition full_data (chk : bool) (at_ : pstate) (k : dkind) (len z : N) (s : list byte) : got :=
  match s with
  | [] => Awaits at_ []
  | _ =>
      less chk len z (fun n =>
      if N.of_nat (List.length s) <? n then Awaits at_ (map (FByte k) s)
      else saying (item k (firstn (N.to_nat n) s)) (pad_bytes z (skipn (N.to_nat n) s)))
  end.

(* The pad length, if there is one. *)
Definition full_pad (chk padded : bool) (at_ : pstate) (len : N) (s : list byte)
           (use : N -> N -> list byte -> got) : got :=
  if padded then
    match s with
    | [] => Awaits at_ []
    | z :: s' => less chk len 1 (fun len => use len z s')
    end
  else use len 0 s.

(* The contents of a frame; lost: a piece ends inside the last-stream-id of a
   GOAWAY frame or inside the value of a setting.  Then the parser waits for
   ever. *)
Definition full_contents (chk lost : bool) (len t f : N) (s : list byte) : got :=
  match t with
  | 0 => full_pad chk (flag_padded f) StDataPadLength len s (full_data chk StDataData KData)
  | 1 =>
      full_pad chk (flag_padded f)
        (if flag_priority f then StHeadersPadLengthWithPriority else StHeadersPadLengthWithoutPriority)
        len s (fun len z s =>
      if flag_priority f then
        fields [StHeadersStreamId1; StHeadersStreamId2; StHeadersStreamId3; StHeadersStreamId4;
                StHeadersWeight] s (fun x s =>
        less chk len 5 (fun len =>
        saying [FEv (EHeaders (2 ^ 31 <=? field x 0 4) (field x 0 4 mod 2 ^ 31) (field x 4 1))]
               (full_data chk StHeadersFragment KFragment len z s)))
      else if flag_padded f
      then saying [FEv (EHeaders false 0 0)] (full_data chk StHeadersFragment KFragment len z s)
      else full_data chk StHeadersFragment KFragment len z s)
  | 2 =>
      fields [StPriorityStreamId1; StPriorityStreamId2; StPriorityStreamId3; StPriorityStreamId4;
              StPriorityWeight] s (fun x s =>
      Frame [FEv (EPriority (2 ^ 31 <=? field x 0 4) (field x 0 4 mod 2 ^ 31) (field x 4 1))] s)
  | 3 =>
      fields [StRstStreamErrorCode1; StRstStreamErrorCode2; StRstStreamErrorCode3;
              StRstStreamErrorCode4] s (fun x s =>
      Frame [FEv (ERstStream (num x))] s)
  | 4 =>
      fields [StSettingsId1; StSettingsId2;
              StSettingsValue1; StSettingsValue2; StSettingsValue3; StSettingsValue3] s (fun x s =>
      if lost then Awaits StSettingsValue3 []
      else Frame [FEv (ESettings (field x 0 2) (field x 2 4))] s)
  | 5 =>
      full_pad chk (flag_padded f) StPushPromisePadLength len s (fun len z s =>
      fields [StPushPromiseStreamId1; StPushPromiseStreamId2; StPushPromiseStreamId3;
              StPushPromiseStreamId4] s (fun x s =>
      match s with
      | [] => Awaits StPushPromiseCallback []
      | _ => less chk len 4 (fun len =>
             saying [FEv (EPushPromise (num x))] (full_data chk StHeadersFragment KFragment len z s))
      end))
  | 6 => full_data chk StPingData KPing len 0 s
  | 7 =>
      fields ([StGoAwayStreamId1; StGoAwayStreamId2; StGoAwayStreamId3; StGoAwayStreamId3] ++
              if lost
              then [StGoAwayStreamId3; StGoAwayStreamId3; StGoAwayStreamId3; StGoAwayStreamId3]
              else [StGoAwayErrorCode1; StGoAwayErrorCode2; StGoAwayErrorCode3; StGoAwayErrorCode4])
             s (fun x s =>
      if lost then Awaits StGoAwayStreamId3 []
      else less chk len 8 (fun len =>
           saying [FEv (EGoAway (field x 0 4 mod 2 ^ 31) (field x 4 4))]
                  (if len =? 0 then Frame [] s else full_data chk StGoAwayDebugData KDebug len 0 s)))
  | 8 =>
      fields [StWindowUpdateIncrement1; StWindowUpdateIncrement2; StWindowUpdateIncrement3;
              StWindowUpdateIncrement4] s (fun x s =>
      Frame [FEv (EWindowUpdate (num x))] s)
  | 9 => full_data chk StHeadersFragment KFragment len 0 s
  | _ => full_pad chk (flag_padded f) StUnsupportedPadLength len s (full_data chk StUnsupportedData KUnsupported)
  end.

(* The first frame of a stream.  Of a stream identifier in which a piece ends
   only the last two bytes count. *)
Definition full_frame (chk : bool) (cut : nat -> bool) (s : list byte) : got :=
  fields [StFrameLength1; StFrameLength2; StFrameLength3; StFrameType; StFrameFlags;
          StFrameStreamId1; StFrameStreamId2; StFrameStreamId3; StFrameStreamId4] s (fun x r =>
  let t := field x 3 1 in
  let id := if split cut s 5 9 then field x 7 2 else field x 5 4 mod 2 ^ 31 in
  let lost := if t =? 7 then split cut s 9 13 else split cut s 11 15 in
  saying [FEv (EFrameFormat (field x 0 3) t (field x 4 1) id)]
         (full_contents chk lost (field x 0 3) t (field x 4 1) r)).

(* All observations; the state in which the next byte is expected and what is
   left of the stream where the last, incomplete frame begins, or None if there
   was an overflow.  The second argument from the end bounds the number of
   frames. *)
Fixpoint full_frames (chk : bool) (cut : nat -> bool) (n : nat) (s : list byte)
  : list fevent * option (pstate * list byte) :=
  match n with
  | O => ([], Some (StFrameLength1, s))
  | S n' =>
      match full_frame chk cut s with
      | Frame e r => (e ++ fst (full_frames chk cut n' r), snd (full_frames chk cut n' r))
      | Awaits a e => (e, Some (a, s))
      | Overflow e => (e, None)
      end
  end.

(* A stream in pieces. *)
Definition full (chk : bool) (segs : list (list byte)) : list fevent * option (pstate * list byte) :=
  full_frames chk (cut_at segs) (S (List.length (List.concat segs))) (List.concat segs).
