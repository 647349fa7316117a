(* Vocabulary in which the properties of the HTTP/2 parser are stated: the
   parsers a program can get hold of, the client that feeds a stream, what an
   observer sees, and frames with their wire format (RFC 7540, sections 4.1 and
   6).  Nothing here is used by the model itself. *)

From Coq Require Import NArith List Bool Arith String.
From Verif Require Import Bytes Http2Model.
Import ListNotations.
Local Open Scope N_scope.

(* ------------------------------------------------------------------ *)
(* Parsers a program can hold                                           *)
(* ------------------------------------------------------------------ *)

(* A stream of u8 values. *)
Definition bytes (s : list byte) : Prop := Forall (fun b : byte => b < 256) s.

(* Created by Parser::new and changed by calls of the public methods, in one
   build; a panic ends the program. *)
Inductive reachable (chk : bool) : parser -> Prop :=
| reach_new : reachable chk new
| reach_reset p : reachable chk p -> reachable chk (reset p)
| reach_resume p h log s p' log' r :
    reachable chk p -> bytes s -> resume chk h p log s = (p', log', r) ->
    (forall f, r <> RFault f) -> reachable chk p'.

(* A handler that never pauses; one that pauses at every callback. *)
Definition yes : handler := fun _ _ => true.
Definition never : handler := fun _ _ => false.

(* ------------------------------------------------------------------ *)
(* Observations                                                         *)
(* ------------------------------------------------------------------ *)

(* What an observer sees who does not care how the bytes of an item were cut
   into fragments: one byte delivered to the data callback of kind k, the
   "finished" flag, or any other call. *)
Inductive fevent :=
| FByte (k : dkind) (b : byte)
| FEnd (k : dkind)
| FEv (e : event).

(* Observations made by one handler call. *)
Definition flat1 (e : event) : list fevent :=
  match e with
  | EData k d fin => map (FByte k) d ++ (if fin then [FEnd k] else [])
  | _ => [FEv e]
  end.

(* Observations made by a history of handler calls. *)
Definition flat (l : list event) : list fevent := flat_map flat1 l.

(* ------------------------------------------------------------------ *)
(* The client                                                           *)
(* ------------------------------------------------------------------ *)

(* How feeding a stream ends. *)
Inductive ending :=
| OEos                   (* everything consumed *)
| OFinished              (* the parser reported Finished *)
| OError (e : perror)
| OFault (f : fault)     (* panic *)
| OFuel.                 (* not enough fuel for this definition *)

(* A client feeding the pieces segs one after the other.  When the handler
   pauses the parser (Callback(n)), it feeds the rest of the piece again, be it
   empty. *)
Fixpoint client (fuel : nat) (chk : bool) (h : handler) (p : parser) (log : list event)
         (segs : list (list byte)) : parser * list event * ending :=
  match segs with
  | [] => (p, log, OEos)
  | seg :: more =>
      match fuel with
      | O => (p, log, OFuel)
      | S fuel' =>
          let '(p', log', r) := resume chk h p log seg in
          match r with
          | ROk (SEos n) => client fuel' chk h p' log' more
          | ROk (SCallback n) => client fuel' chk h p' log' (skipn n seg :: more)
          | ROk (SFinished n) => (p', log', OFinished)
          | RErr e => (p', log', OError e)
          | RFault f => (p', log', OFault f)
          | RFuel => (p', log', OFuel)
          end
      end
  end.

(* Number of resume calls that is always sufficient. *)
Fixpoint calls (segs : list (list byte)) : nat :=
  match segs with
  | [] => 0
  | seg :: more => 4 * List.length seg + 5 + calls more
  end.

(* Feed the pieces to a parser whose handler has not been called yet. *)
Definition feed (chk : bool) (h : handler) (p : parser) (segs : list (list byte))
  : parser * list event * ending :=
  client (calls segs) chk h p [] segs.

(* ------------------------------------------------------------------ *)
(* Frames                                                               *)
(* ------------------------------------------------------------------ *)

(* Stream dependency and weight: RFC 7540, 6.2 and 6.3. *)
Record priority := Prio { pr_exclusive : bool; pr_stream : N; pr_weight : N }.

(* Contents of a frame: RFC 7540, 6.1 to 6.10.  pad = Some z: padded with the
   bytes z.  Reserved bits are part of the frame (rsv).  A SETTINGS frame has
   exactly one setting here. *)
Inductive body :=
| BData (pad : option (list byte)) (d : list byte)
| BHeaders (pad : option (list byte)) (prio : option priority) (fragment : list byte)
| BPriority (prio : priority)
| BRstStream (code : N)
| BSettings (id value : N)
| BPushPromise (pad : option (list byte)) (rsv : bool) (promised : N) (fragment : list byte)
| BPing (d : list byte)
| BGoAway (rsv : bool) (last_stream code : N) (debug : list byte)
| BWindowUpdate (rsv : bool) (increment : N)
| BContinuation (fragment : list byte)
| BUnknown (type : N) (pad : option (list byte)) (d : list byte).

(* A frame: flags octet, reserved bit, stream identifier, contents. *)
Record frame := Frame { f_flags : N; f_rsv : bool; f_stream : N; f_body : body }.

(* Big-endian encodings. *)
Definition be16 (v : N) : list byte := [v / 2 ^ 8 mod 256; v mod 256].
Definition be24 (v : N) : list byte := [v / 2 ^ 16 mod 256; v / 2 ^ 8 mod 256; v mod 256].
Definition be32 (v : N) : list byte :=
  [v / 2 ^ 24 mod 256; v / 2 ^ 16 mod 256; v / 2 ^ 8 mod 256; v mod 256].

(* A 31-bit field preceded by one bit. *)
Definition bit31 (b : bool) (v : N) : N := (if b then 2 ^ 31 else 0) + v.

(* Stream dependency and weight on the wire. *)
Definition render_prio (p : priority) : list byte :=
  be32 (bit31 (pr_exclusive p) (pr_stream p)) ++ [pr_weight p].

(* Padding: RFC 7540, 6.1. *)
Definition padded (pad : option (list byte)) (contents : list byte) : list byte :=
  match pad with
  | None => contents
  | Some z => [N.of_nat (List.length z)] ++ contents ++ z
  end.

(* Frame types: RFC 7540, 11.2. *)
Definition type_of (b : body) : N :=
  match b with
  | BData _ _ => 0
  | BHeaders _ _ _ => 1
  | BPriority _ => 2
  | BRstStream _ => 3
  | BSettings _ _ => 4
  | BPushPromise _ _ _ _ => 5
  | BPing _ => 6
  | BGoAway _ _ _ _ => 7
  | BWindowUpdate _ _ => 8
  | BContinuation _ => 9
  | BUnknown t _ _ => t
  end.

(* The payload of a frame. *)
Definition payload (b : body) : list byte :=
  match b with
  | BData pad d => padded pad d
  | BHeaders pad prio d =>
      padded pad (match prio with Some p => render_prio p | None => [] end ++ d)
  | BPriority p => render_prio p
  | BRstStream c => be32 c
  | BSettings i v => be16 i ++ be32 v
  | BPushPromise pad rsv s d => padded pad (be32 (bit31 rsv s) ++ d)
  | BPing d => d
  | BGoAway rsv s c d => be32 (bit31 rsv s) ++ be32 c ++ d
  | BWindowUpdate rsv n => be32 (bit31 rsv n)
  | BContinuation d => d
  | BUnknown _ pad d => padded pad d
  end.

(* A frame header: RFC 7540, 4.1. *)
Definition render_header (len type flags : N) (rsv : bool) (stream : N) : list byte :=
  be24 len ++ [type; flags] ++ be32 (bit31 rsv stream).

(* A frame on the wire. *)
Definition render (f : frame) : list byte :=
  render_header (N.of_nat (List.length (payload (f_body f)))) (type_of (f_body f)) (f_flags f)
                (f_rsv f) (f_stream f)
  ++ payload (f_body f).

(* The PADDED and PRIORITY flags: bits 3 and 5 of the flags octet. *)
Definition flag_padded (f : N) : bool := N.testbit f 3.
Definition flag_priority (f : N) : bool := N.testbit f 5.

Definition is_some {X} (o : option X) : bool := match o with Some _ => true | None => false end.

(* At most 255 bytes of padding. *)
Definition wf_pad (flags : N) (pad : option (list byte)) : Prop :=
  flag_padded flags = is_some pad /\
  match pad with Some z => (List.length z < 256)%nat | None => True end.

Definition wf_prio (p : priority) : Prop := pr_stream p < 2 ^ 31 /\ pr_weight p < 256.

(* Field values in range, flags that say what is in the frame. *)
Definition wf_body (flags : N) (b : body) : Prop :=
  match b with
  | BData pad d => wf_pad flags pad
  | BHeaders pad prio d =>
      wf_pad flags pad /\ flag_priority flags = is_some prio /\
      match prio with Some p => wf_prio p | None => True end
  | BPriority p => wf_prio p
  | BRstStream c => c < 2 ^ 32
  | BSettings i v => i < 2 ^ 16 /\ v < 2 ^ 32
  | BPushPromise pad rsv s d => wf_pad flags pad /\ s < 2 ^ 31
  | BPing d => True
  | BGoAway rsv s c d => s < 2 ^ 31 /\ c < 2 ^ 32
  | BWindowUpdate rsv n => n < 2 ^ 31
  | BContinuation d => True
  | BUnknown t pad d => 10 <= t < 256 /\ wf_pad flags pad
  end.

Definition wf_frame (f : frame) : Prop :=
  f_flags f < 256 /\ f_stream f < 2 ^ 31 /\ wf_body (f_flags f) (f_body f) /\
  bytes (payload (f_body f)) /\ N.of_nat (List.length (payload (f_body f))) < 2 ^ 24.

(* ------------------------------------------------------------------ *)
(* What the crate reports of a frame                                    *)
(* ------------------------------------------------------------------ *)

(* All bytes of an item, then the end flag. *)
Definition item (k : dkind) (d : list byte) : list fevent := map (FByte k) d ++ [FEnd k].

(* The callbacks that report the contents.  Two peculiarities of the crate:
   on_headers is also called for HEADERS frames that are padded but have no
   priority (with zeros), and the reserved bits of PUSH_PROMISE and
   WINDOW_UPDATE are reported as part of the number. *)
Definition seen_body (b : body) : list fevent :=
  match b with
  | BData _ d => item KData d
  | BHeaders pad prio d =>
      match prio, pad with
      | Some p, _ => [FEv (EHeaders (pr_exclusive p) (pr_stream p) (pr_weight p))]
      | None, Some _ => [FEv (EHeaders false 0 0)]
      | None, None => []
      end ++ item KFragment d
  | BPriority p => [FEv (EPriority (pr_exclusive p) (pr_stream p) (pr_weight p))]
  | BRstStream c => [FEv (ERstStream c)]
  | BSettings i v => [FEv (ESettings i v)]
  | BPushPromise _ rsv s d => FEv (EPushPromise (bit31 rsv s)) :: item KFragment d
  | BPing d => item KPing d
  | BGoAway _ s c d =>
      FEv (EGoAway s c) :: match d with [] => [] | _ => item KDebug d end
  | BWindowUpdate rsv n => [FEv (EWindowUpdate (bit31 rsv n))]
  | BContinuation d => item KFragment d
  | BUnknown _ _ d => item KUnsupported d
  end.

(* on_frame_format, then the contents. *)
Definition seen (f : frame) : list fevent :=
  FEv (EFrameFormat (N.of_nat (List.length (payload (f_body f)))) (type_of (f_body f))
                    (f_flags f) (f_stream f))
  :: seen_body (f_body f).

Definition render_all (fs : list frame) : list byte := List.concat (map render fs).
Definition seen_all (fs : list frame) : list fevent := List.concat (map seen fs).

(* ------------------------------------------------------------------ *)
(* Places where the stream must not be cut                              *)
(* ------------------------------------------------------------------ *)

(* Offset k lies strictly inside the stream identifier of the frame header, the
   last-stream-id of a GOAWAY frame or the value of a SETTINGS frame. *)
Definition fragile1 (b : body) (k : nat) : Prop :=
  (5 < k < 9)%nat \/
  match b with
  | BGoAway _ _ _ _ => (9 < k < 13)%nat
  | BSettings _ _ => (11 < k < 15)%nat
  | _ => False
  end.

(* The same for an offset into a sequence of frames. *)
Fixpoint fragile (fs : list frame) (k : nat) : Prop :=
  match fs with
  | [] => False
  | f :: fs' =>
      if (k <? List.length (render f))%nat then fragile1 (f_body f) k
      else fragile fs' (k - List.length (render f))
  end.

(* No piece begins or ends at such a place. *)
Definition safe_cuts (fs : list frame) (segs : list (list byte)) : Prop :=
  forall before after, segs = before ++ after -> ~ fragile fs (List.length (List.concat before)).

(* ------------------------------------------------------------------ *)
(* Raw frames                                                           *)
(* ------------------------------------------------------------------ *)

(* Reported identifiers have 31 bits. *)
Definition id31 (e : event) : Prop :=
  match e with
  | EFrameFormat _ _ _ s => s < 2 ^ 31
  | EGoAway s _ => s < 2 ^ 31
  | EHeaders _ s _ => s < 2 ^ 31
  | EPriority _ s _ => s < 2 ^ 31
  | _ => True
  end.

(* Size of the fixed fields that precede the data of a frame of type t with
   flags f: RFC 7540, 6.2, 6.6, 6.8. *)
Definition fixed_part (t f : N) : N :=
  match t with
  | 1 => if flag_priority f then 5 else 0
  | 5 => 4
  | 7 => 8
  | _ => 0
  end.

(* Does the frame start with a pad length?  (The crate also takes frames of
   unknown type to be padded.) *)
Definition has_pad (t f : N) : bool :=
  match t with
  | 0 | 1 | 5 => flag_padded f
  | 2 | 3 | 4 | 6 | 7 | 8 | 9 => false
  | _ => flag_padded f
  end.

(* The callback that gets the data of such a frame. *)
Definition data_kind (t : N) : option dkind :=
  match t with
  | 0 => Some KData
  | 1 | 5 | 9 => Some KFragment
  | 6 => Some KPing
  | 7 => Some KDebug
  | 2 | 3 | 4 | 8 => None
  | _ => Some KUnsupported
  end.

(* Everything that was reported, and the parser, after some public calls with
   the same handler history. *)
Inductive history (chk : bool) : parser -> list event -> Prop :=
| hist_new : history chk new []
| hist_reset p log : history chk p log -> history chk (reset p) log
| hist_resume p h log s p' log' r :
    history chk p log -> bytes s -> resume chk h p log s = (p', log', r) ->
    (forall f, r <> RFault f) -> history chk p' log'.

(* Length, type and flags of the last frame header reported. *)
Fixpoint last_header (log : list event) : option (N * N * N) :=
  match log with
  | [] => None
  | e :: log' =>
      match last_header log', e with
      | Some x, _ => Some x
      | None, EFrameFormat len t f _ => Some (len, t, f)
      | None, _ => None
      end
  end.

(* The parsers stand at the same place with the same partial fields (at the
   start of a frame there are none). *)
Definition same_place (p q : parser) : Prop :=
  state p = state q /\ state_fn p = state_fn q /\
  (state_fn p = StFrameLength1 \/
   (bit_data32a p = bit_data32a q /\ bit_data32b p = bit_data32b q /\
    bit_data16a p = bit_data16a q /\ bit_data16b p = bit_data16b q)).

(* The contents end with a byte that is not part of a fixed field, or consist
   of fixed fields only. *)
Definition prompt (b : body) : Prop :=
  match b with
  | BData pad d | BHeaders pad _ d | BPushPromise pad _ _ d | BUnknown _ pad d =>
      d <> [] \/ exists z, pad = Some z /\ z <> []
  | BPing d | BContinuation d => d <> []
  | _ => True
  end.

(* Offsets into a frame of type t at which it must not be cut. *)
Definition fragile_raw (t : N) (k : nat) : Prop :=
  (5 < k < 9)%nat \/ (t = 7 /\ (9 < k < 13)%nat).

(* The data part of a payload whose pad length is z (if there is one). *)
Definition data_part (t f z : N) (s : list byte) : list byte :=
  let front := (if has_pad t f then 1 else 0) + fixed_part t f in
  let back := if has_pad t f then z else 0 in
  firstn (List.length s - N.to_nat front - N.to_nat back) (skipn (N.to_nat front) s).

(* An observation that is not about data. *)
Definition plain (e : fevent) : Prop :=
  match e with FEv _ => True | _ => False end.

(* The data d of a frame of type t is reported piece by piece and then the end
   flag; a GOAWAY frame without debug data makes no data callback at all. *)
Definition reported (k : dkind) (t : N) (d : list byte) : list fevent :=
  match t, d with 7, [] => [] | _, _ => item k d end.
