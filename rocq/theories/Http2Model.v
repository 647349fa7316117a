(* Executable model of the HTTP/2 frame parser: /repo/src/http2/parser.rs,
   http_handler.rs, parser_state.rs and the macros of /repo/src/fsm.rs.  One
   Gallina function per Rust state function, in source order.  No proofs in
   this file.

   The crate does arithmetic on attacker-controlled u32 lengths.  Whether an
   underflow panics or wraps depends on the build (overflow-checks); the
   parameter chk says which: true = checked (debug) build, false = unchecked
   (release) build. *)

From Coq Require Import NArith List Bool Arith String.
From Verif Require Import Bytes ByteStream.
Import ListNotations.
Local Open Scope N_scope.

(* ------------------------------------------------------------------ *)
(* Types                                                                *)
(* ------------------------------------------------------------------ *)

(* enum ParserState, /repo/src/http2/parser_state.rs:22-265, variants in
   source order.  The same type names the state functions: the function of
   variant Xyz is the one whose snake_case name is xyz; set_state! and
   transition! always name a matching pair (checked over all uses in
   parser.rs). *)
Inductive pstate :=
| StDead
| StFrameLength1
| StFrameLength2
| StFrameLength3
| StFrameType
| StFrameFlags
| StFrameStreamId1
| StFrameStreamId2
| StFrameStreamId3
| StFrameStreamId4
| StFrameFormatEnd
| StFramePadding
| StDataPadLength
| StDataData
| StGoAwayStreamId1
| StGoAwayStreamId2
| StGoAwayStreamId3
| StGoAwayStreamId4
| StGoAwayErrorCode1
| StGoAwayErrorCode2
| StGoAwayErrorCode3
| StGoAwayErrorCode4
| StGoAwayCallback
| StGoAwayDebugData
| StHeadersPadLengthWithPriority
| StHeadersPadLengthWithoutPriority
| StHeadersStreamId1
| StHeadersStreamId2
| StHeadersStreamId3
| StHeadersStreamId4
| StHeadersWeight
| StHeadersCallback
| StHeadersFragment
| StPingData
| StPriorityStreamId1
| StPriorityStreamId2
| StPriorityStreamId3
| StPriorityStreamId4
| StPriorityWeight
| StPushPromisePadLength
| StPushPromiseStreamId1
| StPushPromiseStreamId2
| StPushPromiseStreamId3
| StPushPromiseStreamId4
| StPushPromiseCallback
| StRstStreamErrorCode1
| StRstStreamErrorCode2
| StRstStreamErrorCode3
| StRstStreamErrorCode4
| StRstStreamCallback
| StSettingsId1
| StSettingsId2
| StSettingsValue1
| StSettingsValue2
| StSettingsValue3
| StSettingsValue4
| StSettingsCallback
| StUnsupportedPadLength
| StUnsupportedData
| StWindowUpdateIncrement1
| StWindowUpdateIncrement2
| StWindowUpdateIncrement3
| StWindowUpdateIncrement4
| StWindowUpdateCallback
| StFinished.

(* enum ParserError, /repo/src/http2/parser.rs:147-151 *)
Inductive perror := ErDead.

(* The handler methods of trait HttpHandler that receive a byte slice and a
   "finished" flag, /repo/src/http2/http_handler.rs:40-279. *)
Inductive dkind := KData | KDebug | KFragment | KPing | KUnsupported.

(* One call of a handler method, /repo/src/http2/http_handler.rs:22-296. *)
Inductive event :=
| EData (k : dkind) (d : list byte) (finished : bool)
| EFrameFormat (payload_length frame_type flags stream_id : N)
| EGoAway (stream_id error_code : N)
| EHeaders (exclusive : bool) (stream_id weight : N)
| EPriority (exclusive : bool) (stream_id weight : N)
| EPushPromise (stream_id : N)
| ERstStream (error_code : N)
| ESettings (id value : N)
| EWindowUpdate (size_increment : N).

(* An implementation of HttpHandler: the boolean answered to a callback, an
   arbitrary function of the calls made before (which determine any state the
   handler may keep).  /repo/src/http2/http_handler.rs:22-296 *)
Definition handler := list event -> event -> bool.

(* enum Success, /repo/src/fsm.rs:200-233 *)
Inductive success :=
| SCallback (n : nat)
| SEos (n : nat)
| SFinished (n : nat).

(* Panics (no counterpart value in the source). *)
Inductive fault :=
| FIndexPanic        (* slice index out of range *)
| FOverflow.         (* u32 subtraction below zero in a checked build *)

(* Result<ParserValue, ParserError> of a state function,
   /repo/src/fsm.rs:188-194, extended with faults. *)
Inductive outcome :=
| Continue
| Exit (s : success)
| Fail (e : perror)
| Faulted (f : fault).

(* struct Parser, /repo/src/http2/parser.rs:179-201.  bit_data32a, 32b are
   u32, bit_data16a, 16b are u16; byte_count is a usize, unbounded in the
   model. *)
Record parser := Parser {
  bit_data32a : N;
  bit_data32b : N;
  bit_data16a : N;
  bit_data16b : N;
  byte_count  : N;
  state       : pstate;
  state_fn    : pstate
}.

(* What a state function works on: the parser (self), the context, and the
   history of handler calls. *)
Record mach := Mach { mp : parser; mc : ctx; ml : list event }.

(* ------------------------------------------------------------------ *)
(* Field updates                                                        *)
(* ------------------------------------------------------------------ *)

(* self.bit_data32a = v *)
Definition p_32a (p : parser) (v : N) : parser :=
  Parser v (bit_data32b p) (bit_data16a p) (bit_data16b p) (byte_count p) (state p) (state_fn p).
(* self.bit_data32b = v *)
Definition p_32b (p : parser) (v : N) : parser :=
  Parser (bit_data32a p) v (bit_data16a p) (bit_data16b p) (byte_count p) (state p) (state_fn p).
(* self.bit_data16a = v *)
Definition p_16a (p : parser) (v : N) : parser :=
  Parser (bit_data32a p) (bit_data32b p) v (bit_data16b p) (byte_count p) (state p) (state_fn p).
(* self.bit_data16b = v *)
Definition p_16b (p : parser) (v : N) : parser :=
  Parser (bit_data32a p) (bit_data32b p) (bit_data16a p) v (byte_count p) (state p) (state_fn p).
(* self.byte_count += n *)
Definition add_count (p : parser) (n : nat) : parser :=
  Parser (bit_data32a p) (bit_data32b p) (bit_data16a p) (bit_data16b p)
         (byte_count p + N.of_nat n) (state p) (state_fn p).
(* self.state = s (without the state function), /repo/src/http2/parser.rs:266 *)
Definition with_state_only (p : parser) (s : pstate) : parser :=
  Parser (bit_data32a p) (bit_data32b p) (bit_data16a p) (bit_data16b p) (byte_count p) s (state_fn p).
(* set_state!, /repo/src/fsm.rs:150-155 *)
Definition p_set_state (p : parser) (s : pstate) : parser :=
  Parser (bit_data32a p) (bit_data32b p) (bit_data16a p) (bit_data16b p) (byte_count p) s s.
(* Parser::reset_bit_data, /repo/src/http2/parser.rs:236-241 *)
Definition reset_bit_data (p : parser) : parser :=
  Parser 0 0 0 0 (byte_count p) (state p) (state_fn p).

(* Replace the parser / the context of a machine state (plumbing). *)
Definition with_p (m : mach) (p : parser) : mach := Mach p (mc m) (ml m).
(* see with_p *)
Definition with_c (m : mach) (c : ctx) : mach := Mach (mp m) c (ml m).

(* set_state! on the machine state, /repo/src/fsm.rs:150-155 *)
Definition set_state (m : mach) (s : pstate) : mach := with_p m (p_set_state (mp m) s).

(* self.bit_data32a = v etc. on the machine state *)
Definition set32a (m : mach) (v : N) : mach := with_p m (p_32a (mp m) v).
(* see set32a *)
Definition set32b (m : mach) (v : N) : mach := with_p m (p_32b (mp m) v).
(* see set32a *)
Definition set16a (m : mach) (v : N) : mach := with_p m (p_16a (mp m) v).
(* see set32a *)
Definition set16b (m : mach) (v : N) : mach := with_p m (p_16b (mp m) v).

(* self.bit_data32a |= v etc. *)
Definition or32a (m : mach) (v : N) : mach := set32a m (N.lor (bit_data32a (mp m)) v).
(* see or32a *)
Definition or32b (m : mach) (v : N) : mach := set32b m (N.lor (bit_data32b (mp m)) v).
(* see or32a *)
Definition or16a (m : mach) (v : N) : mach := set16a m (N.lor (bit_data16a (mp m)) v).
(* see or32a *)
Definition or16b (m : mach) (v : N) : mach := set16b m (N.lor (bit_data16b (mp m)) v).

(* ------------------------------------------------------------------ *)
(* Fixed-width arithmetic                                               *)
(* ------------------------------------------------------------------ *)

(* "as u32" *)
Definition u32 (v : N) : N := v mod 2 ^ 32.
(* v << n on u32: bits shifted out are lost *)
Definition shl32 (v n : N) : N := u32 (N.shiftl v n).
(* v << n on u16 *)
Definition shl16 (v n : N) : N := N.shiftl v n mod 2 ^ 16.
(* "as u8" *)
Definition u8 (v : N) : N := v mod 256.

(* a - b on u32: None models the panic of a checked build, an unchecked build
   wraps around. *)
Definition sub32 (chk : bool) (a b : N) : option N :=
  if b <=? a then Some (a - b)
  else if chk then None
  else Some (u32 (a + 2 ^ 32 - b)).

(* FL_PADDED, FL_PRIORITY, /repo/src/http2/flags.rs:29,32 *)
Definition FL_PADDED : N := 8.
(* see FL_PADDED *)
Definition FL_PRIORITY : N := 32.

(* ------------------------------------------------------------------ *)
(* Macros of fsm.rs                                                     *)
(* ------------------------------------------------------------------ *)

(* Calling a handler method: the call is appended to the history and the
   handler's answer returned. *)
Definition call (h : handler) (m : mach) (e : event) : mach * bool :=
  (Mach (mp m) (mc m) (ml m ++ [e]), h (ml m) e).

(* exit_callback!(parser, context), /repo/src/fsm.rs:105-107 *)
Definition exit_callback (m : mach) : mach * outcome :=
  (m, Exit (SCallback (cindex (mc m)))).

(* exit_callback!(parser, context, state, function), /repo/src/fsm.rs:99-103 *)
Definition exit_callback_to (m : mach) (s : pstate) : mach * outcome :=
  exit_callback (set_state m s).

(* exit_eos!, /repo/src/fsm.rs:111-115 *)
Definition exit_eos (m : mach) : mach * outcome :=
  (m, Exit (SEos (cindex (mc m)))).

(* exit_finished!, /repo/src/fsm.rs:129-133 *)
Definition exit_finished (m : mach) : mach * outcome :=
  (m, Exit (SFinished (cindex (mc m)))).

(* exit_error!, /repo/src/fsm.rs:118-126 *)
Definition fail (m : mach) (e : perror) : mach * outcome := (m, Fail e).

(* A panic, see fault. *)
Definition faulted (m : mach) (f : fault) : mach * outcome := (m, Faulted f).

(* exit_if_eos!, /repo/src/fsm.rs:136-140 *)
Definition exit_if_eos (m : mach) (k : mach -> mach * outcome) : mach * outcome :=
  if (0 <? bs_available (mc m))%nat then k m else exit_eos m.

(* transition!(parser, context), /repo/src/fsm.rs:167-171 *)
Definition remark (m : mach) : mach * outcome :=
  (with_c m (bs_mark (mc m)), Continue).

(* transition!, /repo/src/fsm.rs:158-165 *)
Definition transition (m : mach) (s : pstate) : mach * outcome :=
  remark (set_state m s).

(* ------------------------------------------------------------------ *)
(* Macros of parser.rs                                                  *)
(* ------------------------------------------------------------------ *)

(* payload_length!, /repo/src/http2/parser.rs:81-85 *)
Definition payload_length (m : mach) : N := N.shiftr (bit_data32a (mp m)) 8.

(* pad_length!, /repo/src/http2/parser.rs:74-78 *)
Definition pad_length (m : mach) : N := N.land (bit_data32a (mp m)) 255.

(* actual_length!, /repo/src/http2/parser.rs:44-48 *)
Definition actual_length (chk : bool) (m : mach) : option N :=
  sub32 chk (payload_length m) (pad_length m).

(* dec_payload_length!, /repo/src/http2/parser.rs:51-56 *)
Definition dec_payload_length (chk : bool) (m : mach) (l : N)
           (k : mach -> mach * outcome) : mach * outcome :=
  match sub32 chk (N.shiftr (bit_data32a (mp m)) 8) l with
  | None => faulted m FOverflow
  | Some v => k (set32a m (N.lor (N.land (bit_data32a (mp m)) 255) (shl32 v 8)))
  end.

(* get_u8!, /repo/src/http2/parser.rs:59-65 *)
Definition get_u8 (m : mach) (k : mach -> byte -> mach * outcome) : mach * outcome :=
  match crest (mc m) with
  | [] => faulted m FIndexPanic
  | b :: _ => k (with_c m (bs_jump (mc m) 1)) b
  end.

(* has_flag!, /repo/src/http2/parser.rs:67-71 *)
Definition has_flag (m : mach) (flag : N) : bool :=
  N.land (u8 (bit_data16a (mp m))) flag =? flag.

(* read_u16!, /repo/src/http2/parser.rs:122-129; the variable is passed by its
   current value. *)
Definition read_u16 (m : mach) (into : N) (k : mach -> N -> mach * outcome) : mach * outcome :=
  match crest (mc m) with
  | b0 :: b1 :: _ =>
      k (with_c m (bs_jump (mc m) 2)) (N.lor (N.lor into (shl16 b0 8)) b1)
  | _ => faulted m FIndexPanic
  end.

(* read_u32!, /repo/src/http2/parser.rs:132-141 *)
Definition read_u32 (m : mach) (into : N) (k : mach -> N -> mach * outcome) : mach * outcome :=
  match crest (mc m) with
  | b0 :: b1 :: b2 :: b3 :: _ =>
      k (with_c m (bs_jump (mc m) 4))
        (N.lor (N.lor (N.lor (N.lor into (shl32 b0 24)) (shl32 b1 16)) (shl32 b2 8)) b3)
  | _ => faulted m FIndexPanic
  end.

(* parse_payload_data!, /repo/src/http2/parser.rs:88-119.  actual_length! is
   evaluated three times there, with the same fields. *)
Definition parse_payload_data (chk : bool) (h : handler) (m : mach) (cb : dkind) : mach * outcome :=
  match actual_length chk m with
  | None => faulted m FOverflow
  | Some actual =>
      if actual <=? N.of_nat (bs_available (mc m)) then
        let m := with_c m (bs_jump (mc m) (N.to_nat actual)) in
        dec_payload_length chk m actual (fun m =>
        let m := if 0 <? N.land (bit_data32a (mp m)) 255
                 then set_state m StFramePadding
                 else set_state m StFrameLength1 in
        let '(m, ok) := call h m (EData cb (bs_slice (mc m)) true) in
        if ok then remark m else exit_callback m)
      else
        dec_payload_length chk m (u32 (N.of_nat (bs_available (mc m)))) (fun m =>
        let m := with_c m (bs_jump (mc m) (bs_available (mc m))) in
        let '(m, ok) := call h m (EData cb (bs_slice (mc m)) false) in
        if ok then exit_eos m else exit_callback m)
  end.

(* ------------------------------------------------------------------ *)
(* Frame states                                                         *)
(* ------------------------------------------------------------------ *)

(* /repo/src/http2/parser.rs:292-319 *)
Definition frame_length1 (m : mach) : mach * outcome :=
  exit_if_eos m (fun m =>
  let m := with_p m (reset_bit_data (mp m)) in
  if (4 <=? bs_available (mc m))%nat
  then read_u32 m (bit_data32a (mp m)) (fun m v => transition (set32a m v) StFrameFlags)
  else get_u8 m (fun m b => transition (or32a m (shl32 b 24)) StFrameLength2)).

(* /repo/src/http2/parser.rs:322-334 *)
Definition frame_length2 (m : mach) : mach * outcome :=
  exit_if_eos m (fun m => get_u8 m (fun m b => transition (or32a m (shl32 b 16)) StFrameLength3)).

(* /repo/src/http2/parser.rs:337-349 *)
Definition frame_length3 (m : mach) : mach * outcome :=
  exit_if_eos m (fun m => get_u8 m (fun m b => transition (or32a m (shl32 b 8)) StFrameType)).

(* /repo/src/http2/parser.rs:352-364 *)
Definition frame_type (m : mach) : mach * outcome :=
  exit_if_eos m (fun m => get_u8 m (fun m b => transition (or32a m b) StFrameFlags)).

(* /repo/src/http2/parser.rs:367-379 *)
Definition frame_flags (m : mach) : mach * outcome :=
  exit_if_eos m (fun m => get_u8 m (fun m b => transition (set16a m b) StFrameStreamId1)).

(* /repo/src/http2/parser.rs:382-407 *)
Definition frame_stream_id1 (m : mach) : mach * outcome :=
  exit_if_eos m (fun m =>
  if (4 <=? bs_available (mc m))%nat
  then read_u32 m (bit_data32b (mp m)) (fun m v => transition (set32b m v) StFrameFormatEnd)
  else get_u8 m (fun m b => transition (set32b m (shl32 b 24)) StFrameStreamId2)).

(* /repo/src/http2/parser.rs:410-422: assigns, does not or *)
Definition frame_stream_id2 (m : mach) : mach * outcome :=
  exit_if_eos m (fun m => get_u8 m (fun m b => transition (set32b m (shl32 b 16)) StFrameStreamId3)).

(* /repo/src/http2/parser.rs:425-437: assigns, does not or *)
Definition frame_stream_id3 (m : mach) : mach * outcome :=
  exit_if_eos m (fun m => get_u8 m (fun m b => transition (set32b m (shl32 b 8)) StFrameStreamId4)).

(* /repo/src/http2/parser.rs:440-452 *)
Definition frame_stream_id4 (m : mach) : mach * outcome :=
  exit_if_eos m (fun m => get_u8 m (fun m b => transition (or32b m b) StFrameFormatEnd)).

(* The match of frame_format_end, /repo/src/http2/parser.rs:458-523; the
   constants FR_* are those of /repo/src/http2/frame_type.rs:22-52. *)
Definition frame_target (m : mach) : pstate :=
  match u8 (N.land (bit_data32a (mp m)) 255) with
  | 0 => if has_flag m FL_PADDED then StDataPadLength else StDataData
  | 1 => if has_flag m FL_PADDED
         then if has_flag m FL_PRIORITY then StHeadersPadLengthWithPriority
              else StHeadersPadLengthWithoutPriority
         else if has_flag m FL_PRIORITY then StHeadersStreamId1
         else StHeadersFragment
  | 2 => StPriorityStreamId1
  | 3 => StRstStreamErrorCode1
  | 4 => StSettingsId1
  | 5 => if has_flag m FL_PADDED then StPushPromisePadLength else StPushPromiseStreamId1
  | 6 => StPingData
  | 7 => StGoAwayStreamId1
  | 8 => StWindowUpdateIncrement1
  | 9 => StHeadersFragment
  | _ => if has_flag m FL_PADDED then StUnsupportedPadLength else StUnsupportedData
  end.

(* The assignments after the callback, /repo/src/http2/parser.rs:531-533,537-539 *)
Definition clear_header (m : mach) : mach :=
  set32b (set32a (set16a m 0) (N.land (bit_data32a (mp m)) 4294967040)) 0.

(* /repo/src/http2/parser.rs:455-543 *)
Definition frame_format_end (h : handler) (m : mach) : mach * outcome :=
  let m := set_state m (frame_target m) in
  let '(m, ok) := call h m (EFrameFormat (payload_length m)
                                         (u8 (N.land (bit_data32a (mp m)) 255))
                                         (u8 (bit_data16a (mp m)))
                                         (N.land (bit_data32b (mp m)) 2147483647)) in
  if ok then remark (clear_header m) else exit_callback (clear_header m).

(* /repo/src/http2/parser.rs:546-568 *)
Definition frame_padding (chk : bool) (m : mach) : mach * outcome :=
  exit_if_eos m (fun m =>
  if payload_length m <=? N.of_nat (bs_available (mc m))
  then transition (with_c m (bs_jump (mc m) (N.to_nat (payload_length m)))) StFrameLength1
  else dec_payload_length chk m (u32 (N.of_nat (bs_available (mc m)))) (fun m =>
       exit_eos (with_c m (bs_jump (mc m) (bs_available (mc m)))))).

(* ------------------------------------------------------------------ *)
(* DATA                                                                 *)
(* ------------------------------------------------------------------ *)

(* /repo/src/http2/parser.rs:575-589 *)
Definition data_pad_length (chk : bool) (m : mach) : mach * outcome :=
  exit_if_eos m (fun m => get_u8 m (fun m b =>
  dec_payload_length chk (or32a m b) 1 (fun m => transition m StDataData))).

(* /repo/src/http2/parser.rs:592-602 *)
Definition data_data (chk : bool) (h : handler) (m : mach) : mach * outcome :=
  exit_if_eos m (fun m => parse_payload_data chk h m KData).

(* ------------------------------------------------------------------ *)
(* GOAWAY                                                               *)
(* ------------------------------------------------------------------ *)

(* /repo/src/http2/parser.rs:609-634 *)
Definition go_away_stream_id1 (m : mach) : mach * outcome :=
  exit_if_eos m (fun m =>
  if (4 <=? bs_available (mc m))%nat
  then read_u32 m (bit_data32b (mp m)) (fun m v => transition (set32b m v) StGoAwayErrorCode1)
  else get_u8 m (fun m b => transition (or32b m (shl32 b 24)) StGoAwayStreamId2)).

(* /repo/src/http2/parser.rs:637-649 *)
Definition go_away_stream_id2 (m : mach) : mach * outcome :=
  exit_if_eos m (fun m => get_u8 m (fun m b => transition (or32b m (shl32 b 16)) StGoAwayStreamId3)).

(* /repo/src/http2/parser.rs:652-664: stays in this state *)
Definition go_away_stream_id3 (m : mach) : mach * outcome :=
  exit_if_eos m (fun m => get_u8 m (fun m b => transition (or32b m (shl32 b 8)) StGoAwayStreamId3)).

(* /repo/src/http2/parser.rs:667-679 *)
Definition go_away_stream_id4 (m : mach) : mach * outcome :=
  exit_if_eos m (fun m => get_u8 m (fun m b => transition (or32b m b) StGoAwayErrorCode1)).

(* /repo/src/http2/parser.rs:682-708 *)
Definition go_away_error_code1 (m : mach) : mach * outcome :=
  exit_if_eos m (fun m =>
  if (4 <=? bs_available (mc m))%nat
  then read_u16 m (bit_data16a (mp m)) (fun m v =>
       let m := set16a m v in
       read_u16 m (bit_data16b (mp m)) (fun m v => transition (set16b m v) StGoAwayCallback))
  else get_u8 m (fun m b => transition (or16a m (shl16 b 8)) StGoAwayErrorCode2)).

(* /repo/src/http2/parser.rs:711-723 *)
Definition go_away_error_code2 (m : mach) : mach * outcome :=
  exit_if_eos m (fun m => get_u8 m (fun m b => transition (or16a m b) StGoAwayErrorCode3)).

(* /repo/src/http2/parser.rs:726-738 *)
Definition go_away_error_code3 (m : mach) : mach * outcome :=
  exit_if_eos m (fun m => get_u8 m (fun m b => transition (or16b m (shl16 b 8)) StGoAwayErrorCode4)).

(* /repo/src/http2/parser.rs:741-753 *)
Definition go_away_error_code4 (m : mach) : mach * outcome :=
  exit_if_eos m (fun m => get_u8 m (fun m b => transition (or16b m b) StGoAwayCallback)).

(* /repo/src/http2/parser.rs:756-774 *)
Definition go_away_callback (chk : bool) (h : handler) (m : mach) : mach * outcome :=
  dec_payload_length chk m 8 (fun m =>
  let m := if 0 <? payload_length m then set_state m StGoAwayDebugData
           else set_state m StFrameLength1 in
  let '(m, ok) := call h m (EGoAway (N.land (bit_data32b (mp m)) 2147483647)
                                    (N.lor (shl32 (bit_data16a (mp m)) 16) (bit_data16b (mp m)))) in
  if ok then remark m else exit_callback m).

(* /repo/src/http2/parser.rs:777-787 *)
Definition go_away_debug_data (chk : bool) (h : handler) (m : mach) : mach * outcome :=
  exit_if_eos m (fun m => parse_payload_data chk h m KDebug).

(* ------------------------------------------------------------------ *)
(* HEADERS                                                              *)
(* ------------------------------------------------------------------ *)

(* /repo/src/http2/parser.rs:794-808 *)
Definition headers_pad_length_with_priority (chk : bool) (m : mach) : mach * outcome :=
  exit_if_eos m (fun m => get_u8 m (fun m b =>
  dec_payload_length chk (or32a m b) 1 (fun m => transition m StHeadersStreamId1))).

(* /repo/src/http2/parser.rs:811-825 *)
Definition headers_pad_length_without_priority (chk : bool) (m : mach) : mach * outcome :=
  exit_if_eos m (fun m => get_u8 m (fun m b =>
  dec_payload_length chk (or32a m b) 1 (fun m => transition m StHeadersCallback))).

(* /repo/src/http2/parser.rs:828-853 *)
Definition headers_stream_id1 (m : mach) : mach * outcome :=
  exit_if_eos m (fun m =>
  if (4 <=? bs_available (mc m))%nat
  then read_u32 m (bit_data32b (mp m)) (fun m v => transition (set32b m v) StHeadersWeight)
  else get_u8 m (fun m b => transition (or32b m (shl32 b 24)) StHeadersStreamId2)).

(* /repo/src/http2/parser.rs:856-868 *)
Definition headers_stream_id2 (m : mach) : mach * outcome :=
  exit_if_eos m (fun m => get_u8 m (fun m b => transition (or32b m (shl32 b 16)) StHeadersStreamId3)).

(* /repo/src/http2/parser.rs:871-883 *)
Definition headers_stream_id3 (m : mach) : mach * outcome :=
  exit_if_eos m (fun m => get_u8 m (fun m b => transition (or32b m (shl32 b 8)) StHeadersStreamId4)).

(* /repo/src/http2/parser.rs:886-898 *)
Definition headers_stream_id4 (m : mach) : mach * outcome :=
  exit_if_eos m (fun m => get_u8 m (fun m b => transition (or32b m b) StHeadersWeight)).

(* /repo/src/http2/parser.rs:901-916 *)
Definition headers_weight (chk : bool) (m : mach) : mach * outcome :=
  exit_if_eos m (fun m => get_u8 m (fun m b =>
  dec_payload_length chk (set16a m (shl16 b 8)) 5 (fun m => transition m StHeadersCallback))).

(* /repo/src/http2/parser.rs:919-940 *)
Definition headers_callback (h : handler) (m : mach) : mach * outcome :=
  let '(m, ok) := call h m (EHeaders (N.shiftr (bit_data32b (mp m)) 31 =? 1)
                                     (N.land (bit_data32b (mp m)) 2147483647)
                                     (u8 (N.shiftr (bit_data16a (mp m)) 8))) in
  if ok then transition m StHeadersFragment else exit_callback_to m StHeadersFragment.

(* /repo/src/http2/parser.rs:943-953 *)
Definition headers_fragment (chk : bool) (h : handler) (m : mach) : mach * outcome :=
  exit_if_eos m (fun m => parse_payload_data chk h m KFragment).

(* ------------------------------------------------------------------ *)
(* PING                                                                 *)
(* ------------------------------------------------------------------ *)

(* /repo/src/http2/parser.rs:960-970 *)
Definition ping_data (chk : bool) (h : handler) (m : mach) : mach * outcome :=
  exit_if_eos m (fun m => parse_payload_data chk h m KPing).

(* ------------------------------------------------------------------ *)
(* PRIORITY                                                             *)
(* ------------------------------------------------------------------ *)

(* /repo/src/http2/parser.rs:977-1002 *)
Definition priority_stream_id1 (m : mach) : mach * outcome :=
  exit_if_eos m (fun m =>
  if (4 <=? bs_available (mc m))%nat
  then read_u32 m (bit_data32b (mp m)) (fun m v => transition (set32b m v) StPriorityWeight)
  else get_u8 m (fun m b => transition (or32b m (shl32 b 24)) StPriorityStreamId2)).

(* /repo/src/http2/parser.rs:1005-1017 *)
Definition priority_stream_id2 (m : mach) : mach * outcome :=
  exit_if_eos m (fun m => get_u8 m (fun m b => transition (or32b m (shl32 b 16)) StPriorityStreamId3)).

(* /repo/src/http2/parser.rs:1020-1032 *)
Definition priority_stream_id3 (m : mach) : mach * outcome :=
  exit_if_eos m (fun m => get_u8 m (fun m b => transition (or32b m (shl32 b 8)) StPriorityStreamId4)).

(* /repo/src/http2/parser.rs:1035-1047 *)
Definition priority_stream_id4 (m : mach) : mach * outcome :=
  exit_if_eos m (fun m => get_u8 m (fun m b => transition (or32b m b) StPriorityWeight)).

(* /repo/src/http2/parser.rs:1050-1073 *)
Definition priority_weight (h : handler) (m : mach) : mach * outcome :=
  exit_if_eos m (fun m => get_u8 m (fun m b =>
  let '(m, ok) := call h m (EPriority (N.shiftr (bit_data32b (mp m)) 31 =? 1)
                                      (N.land (bit_data32b (mp m)) 2147483647) b) in
  if ok then transition m StFrameLength1 else exit_callback_to m StFrameLength1)).

(* ------------------------------------------------------------------ *)
(* PUSH_PROMISE                                                         *)
(* ------------------------------------------------------------------ *)

(* /repo/src/http2/parser.rs:1080-1094 *)
Definition push_promise_pad_length (chk : bool) (m : mach) : mach * outcome :=
  exit_if_eos m (fun m => get_u8 m (fun m b =>
  dec_payload_length chk (or32a m b) 1 (fun m => transition m StPushPromiseStreamId1))).

(* /repo/src/http2/parser.rs:1097-1122 *)
Definition push_promise_stream_id1 (m : mach) : mach * outcome :=
  exit_if_eos m (fun m =>
  if (4 <=? bs_available (mc m))%nat
  then read_u32 m (bit_data32b (mp m)) (fun m v => transition (set32b m v) StPushPromiseCallback)
  else get_u8 m (fun m b => transition (or32b m (shl32 b 24)) StPushPromiseStreamId2)).

(* /repo/src/http2/parser.rs:1125-1137 *)
Definition push_promise_stream_id2 (m : mach) : mach * outcome :=
  exit_if_eos m (fun m => get_u8 m (fun m b => transition (or32b m (shl32 b 16)) StPushPromiseStreamId3)).

(* /repo/src/http2/parser.rs:1140-1152 *)
Definition push_promise_stream_id3 (m : mach) : mach * outcome :=
  exit_if_eos m (fun m => get_u8 m (fun m b => transition (or32b m (shl32 b 8)) StPushPromiseStreamId4)).

(* /repo/src/http2/parser.rs:1155-1167 *)
Definition push_promise_stream_id4 (m : mach) : mach * outcome :=
  exit_if_eos m (fun m => get_u8 m (fun m b => transition (or32b m b) StPushPromiseCallback)).

(* /repo/src/http2/parser.rs:1170-1192: the promised stream id is not masked *)
Definition push_promise_callback (chk : bool) (h : handler) (m : mach) : mach * outcome :=
  exit_if_eos m (fun m =>
  dec_payload_length chk m 4 (fun m =>
  let '(m, ok) := call h m (EPushPromise (bit_data32b (mp m))) in
  if ok then transition m StHeadersFragment else exit_callback_to m StHeadersFragment)).

(* ------------------------------------------------------------------ *)
(* RST_STREAM                                                           *)
(* ------------------------------------------------------------------ *)

(* /repo/src/http2/parser.rs:1199-1224 *)
Definition rst_stream_error_code1 (m : mach) : mach * outcome :=
  exit_if_eos m (fun m =>
  if (4 <=? bs_available (mc m))%nat
  then read_u32 m (bit_data32b (mp m)) (fun m v => transition (set32b m v) StRstStreamCallback)
  else get_u8 m (fun m b => transition (or32b m (shl32 b 24)) StRstStreamErrorCode2)).

(* /repo/src/http2/parser.rs:1227-1239 *)
Definition rst_stream_error_code2 (m : mach) : mach * outcome :=
  exit_if_eos m (fun m => get_u8 m (fun m b => transition (or32b m (shl32 b 16)) StRstStreamErrorCode3)).

(* /repo/src/http2/parser.rs:1242-1254 *)
Definition rst_stream_error_code3 (m : mach) : mach * outcome :=
  exit_if_eos m (fun m => get_u8 m (fun m b => transition (or32b m (shl32 b 8)) StRstStreamErrorCode4)).

(* /repo/src/http2/parser.rs:1257-1269 *)
Definition rst_stream_error_code4 (m : mach) : mach * outcome :=
  exit_if_eos m (fun m => get_u8 m (fun m b => transition (or32b m b) StRstStreamCallback)).

(* /repo/src/http2/parser.rs:1272-1289 *)
Definition rst_stream_callback (h : handler) (m : mach) : mach * outcome :=
  let '(m, ok) := call h m (ERstStream (bit_data32b (mp m))) in
  if ok then transition m StFrameLength1 else exit_callback_to m StFrameLength1.

(* ------------------------------------------------------------------ *)
(* SETTINGS                                                             *)
(* ------------------------------------------------------------------ *)

(* /repo/src/http2/parser.rs:1296-1321 *)
Definition settings_id1 (m : mach) : mach * outcome :=
  exit_if_eos m (fun m =>
  if (2 <=? bs_available (mc m))%nat
  then read_u16 m (bit_data16a (mp m)) (fun m v => transition (set16a m v) StSettingsValue1)
  else get_u8 m (fun m b => transition (or16a m (shl16 b 8)) StSettingsId2)).

(* /repo/src/http2/parser.rs:1324-1336 *)
Definition settings_id2 (m : mach) : mach * outcome :=
  exit_if_eos m (fun m => get_u8 m (fun m b => transition (or16a m b) StSettingsValue1)).

(* /repo/src/http2/parser.rs:1339-1364 *)
Definition settings_value1 (m : mach) : mach * outcome :=
  exit_if_eos m (fun m =>
  if (4 <=? bs_available (mc m))%nat
  then read_u32 m (bit_data32b (mp m)) (fun m v => transition (set32b m v) StSettingsCallback)
  else get_u8 m (fun m b => transition (or32b m (shl32 b 24)) StSettingsValue2)).

(* /repo/src/http2/parser.rs:1367-1379 *)
Definition settings_value2 (m : mach) : mach * outcome :=
  exit_if_eos m (fun m => get_u8 m (fun m b => transition (or32b m (shl32 b 16)) StSettingsValue3)).

(* /repo/src/http2/parser.rs:1382-1394: stays in this state *)
Definition settings_value3 (m : mach) : mach * outcome :=
  exit_if_eos m (fun m => get_u8 m (fun m b => transition (or32b m (shl32 b 8)) StSettingsValue3)).

(* /repo/src/http2/parser.rs:1397-1409 *)
Definition settings_value4 (m : mach) : mach * outcome :=
  exit_if_eos m (fun m => get_u8 m (fun m b => transition (or32b m b) StSettingsCallback)).

(* /repo/src/http2/parser.rs:1412-1429 *)
Definition settings_callback (h : handler) (m : mach) : mach * outcome :=
  let '(m, ok) := call h m (ESettings (bit_data16a (mp m)) (bit_data32b (mp m))) in
  if ok then transition m StFrameLength1 else exit_callback_to m StFrameLength1.

(* ------------------------------------------------------------------ *)
(* WINDOW_UPDATE                                                        *)
(* ------------------------------------------------------------------ *)

(* /repo/src/http2/parser.rs:1436-1461 *)
Definition window_update_increment1 (m : mach) : mach * outcome :=
  exit_if_eos m (fun m =>
  if (4 <=? bs_available (mc m))%nat
  then read_u32 m (bit_data32b (mp m)) (fun m v => transition (set32b m v) StWindowUpdateCallback)
  else get_u8 m (fun m b => transition (or32b m (shl32 b 24)) StWindowUpdateIncrement2)).

(* /repo/src/http2/parser.rs:1464-1476 *)
Definition window_update_increment2 (m : mach) : mach * outcome :=
  exit_if_eos m (fun m => get_u8 m (fun m b => transition (or32b m (shl32 b 16)) StWindowUpdateIncrement3)).

(* /repo/src/http2/parser.rs:1479-1491 *)
Definition window_update_increment3 (m : mach) : mach * outcome :=
  exit_if_eos m (fun m => get_u8 m (fun m b => transition (or32b m (shl32 b 8)) StWindowUpdateIncrement4)).

(* /repo/src/http2/parser.rs:1494-1506 *)
Definition window_update_increment4 (m : mach) : mach * outcome :=
  exit_if_eos m (fun m => get_u8 m (fun m b => transition (or32b m b) StWindowUpdateCallback)).

(* /repo/src/http2/parser.rs:1509-1526: the increment is not masked *)
Definition window_update_callback (h : handler) (m : mach) : mach * outcome :=
  let '(m, ok) := call h m (EWindowUpdate (bit_data32b (mp m))) in
  if ok then transition m StFrameLength1 else exit_callback_to m StFrameLength1.

(* ------------------------------------------------------------------ *)
(* Unsupported frames                                                   *)
(* ------------------------------------------------------------------ *)

(* /repo/src/http2/parser.rs:1533-1547 *)
Definition unsupported_pad_length (chk : bool) (m : mach) : mach * outcome :=
  exit_if_eos m (fun m => get_u8 m (fun m b =>
  dec_payload_length chk (or32a m b) 1 (fun m => transition m StUnsupportedData))).

(* /repo/src/http2/parser.rs:1550-1560 *)
Definition unsupported_data (chk : bool) (h : handler) (m : mach) : mach * outcome :=
  exit_if_eos m (fun m => parse_payload_data chk h m KUnsupported).

(* ------------------------------------------------------------------ *)
(* Dead and finished                                                    *)
(* ------------------------------------------------------------------ *)

(* /repo/src/http2/parser.rs:1567-1570 *)
Definition dead (m : mach) : mach * outcome :=
  fail m ErDead.

(* /repo/src/http2/parser.rs:1573-1576 *)
Definition finished (m : mach) : mach * outcome :=
  exit_finished m.

(* ------------------------------------------------------------------ *)
(* The loop                                                             *)
(* ------------------------------------------------------------------ *)

(* The call (self.state_function)(self, handler, context),
   /repo/src/http2/parser.rs:259. *)
Definition run_fn (chk : bool) (h : handler) (m : mach) : mach * outcome :=
  match state_fn (mp m) with
  | StDead => dead m
  | StFrameLength1 => frame_length1 m
  | StFrameLength2 => frame_length2 m
  | StFrameLength3 => frame_length3 m
  | StFrameType => frame_type m
  | StFrameFlags => frame_flags m
  | StFrameStreamId1 => frame_stream_id1 m
  | StFrameStreamId2 => frame_stream_id2 m
  | StFrameStreamId3 => frame_stream_id3 m
  | StFrameStreamId4 => frame_stream_id4 m
  | StFrameFormatEnd => frame_format_end h m
  | StFramePadding => frame_padding chk m
  | StDataPadLength => data_pad_length chk m
  | StDataData => data_data chk h m
  | StGoAwayStreamId1 => go_away_stream_id1 m
  | StGoAwayStreamId2 => go_away_stream_id2 m
  | StGoAwayStreamId3 => go_away_stream_id3 m
  | StGoAwayStreamId4 => go_away_stream_id4 m
  | StGoAwayErrorCode1 => go_away_error_code1 m
  | StGoAwayErrorCode2 => go_away_error_code2 m
  | StGoAwayErrorCode3 => go_away_error_code3 m
  | StGoAwayErrorCode4 => go_away_error_code4 m
  | StGoAwayCallback => go_away_callback chk h m
  | StGoAwayDebugData => go_away_debug_data chk h m
  | StHeadersPadLengthWithPriority => headers_pad_length_with_priority chk m
  | StHeadersPadLengthWithoutPriority => headers_pad_length_without_priority chk m
  | StHeadersStreamId1 => headers_stream_id1 m
  | StHeadersStreamId2 => headers_stream_id2 m
  | StHeadersStreamId3 => headers_stream_id3 m
  | StHeadersStreamId4 => headers_stream_id4 m
  | StHeadersWeight => headers_weight chk m
  | StHeadersCallback => headers_callback h m
  | StHeadersFragment => headers_fragment chk h m
  | StPingData => ping_data chk h m
  | StPriorityStreamId1 => priority_stream_id1 m
  | StPriorityStreamId2 => priority_stream_id2 m
  | StPriorityStreamId3 => priority_stream_id3 m
  | StPriorityStreamId4 => priority_stream_id4 m
  | StPriorityWeight => priority_weight h m
  | StPushPromisePadLength => push_promise_pad_length chk m
  | StPushPromiseStreamId1 => push_promise_stream_id1 m
  | StPushPromiseStreamId2 => push_promise_stream_id2 m
  | StPushPromiseStreamId3 => push_promise_stream_id3 m
  | StPushPromiseStreamId4 => push_promise_stream_id4 m
  | StPushPromiseCallback => push_promise_callback chk h m
  | StRstStreamErrorCode1 => rst_stream_error_code1 m
  | StRstStreamErrorCode2 => rst_stream_error_code2 m
  | StRstStreamErrorCode3 => rst_stream_error_code3 m
  | StRstStreamErrorCode4 => rst_stream_error_code4 m
  | StRstStreamCallback => rst_stream_callback h m
  | StSettingsId1 => settings_id1 m
  | StSettingsId2 => settings_id2 m
  | StSettingsValue1 => settings_value1 m
  | StSettingsValue2 => settings_value2 m
  | StSettingsValue3 => settings_value3 m
  | StSettingsValue4 => settings_value4 m
  | StSettingsCallback => settings_callback h m
  | StUnsupportedPadLength => unsupported_pad_length chk m
  | StUnsupportedData => unsupported_data chk h m
  | StWindowUpdateIncrement1 => window_update_increment1 m
  | StWindowUpdateIncrement2 => window_update_increment2 m
  | StWindowUpdateIncrement3 => window_update_increment3 m
  | StWindowUpdateIncrement4 => window_update_increment4 m
  | StWindowUpdateCallback => window_update_callback h m
  | StFinished => finished m
  end.

(* Result<Success, ParserError> of resume, extended with faults and with "out
   of fuel". *)
Inductive result :=
| ROk (s : success)
| RErr (e : perror)
| RFault (f : fault)
| RFuel.

(* The loop of Parser::resume, /repo/src/http2/parser.rs:258-281, with explicit
   fuel. *)
Fixpoint parse (fuel : nat) (chk : bool) (h : handler) (m : mach) : mach * result :=
  match fuel with
  | O => (m, RFuel)
  | S fuel' =>
      let '(m', o) := run_fn chk h m in
      match o with
      | Continue => parse fuel' chk h m'
      | Exit s =>
          let p := add_count (mp m') (cindex (mc m')) in
          let p := match s with SFinished _ => with_state_only p StFinished | _ => p end in
          (with_p m' p, ROk s)
      | Fail e =>
          let p := add_count (mp m') (cindex (mc m')) in
          (with_p m' (p_set_state p StDead), RErr e)
      | Faulted f => (m', RFault f)
      end
  end.

(* Fuel for the loop of one resume call; the loop of the source is unbounded,
   a theorem shows that this fuel is never exhausted. *)
Definition fuel_of (stream : list byte) : nat := 4 * List.length stream + 8.

(* Parser::resume, /repo/src/http2/parser.rs:255-282.  Takes the parser and the
   history of handler calls, returns both updated and the result. *)
Definition resume (chk : bool) (h : handler) (p : parser) (log : list event) (stream : list byte)
  : parser * list event * result :=
  let '(m, r) := parse (fuel_of stream) chk h (Mach p (bs_new stream) log) in
  (mp m, ml m, r).

(* Parser::new, /repo/src/http2/parser.rs:206-214 *)
Definition new : parser := Parser 0 0 0 0 0 StFrameLength1 StFrameLength1.

(* Parser::reset, /repo/src/http2/parser.rs:227-233 *)
Definition reset (p : parser) : parser :=
  reset_bit_data
    (Parser (bit_data32a p) (bit_data32b p) (bit_data16a p) (bit_data16b p) 0
            StFrameLength1 StFrameLength1).
