(* Executable model of the HTTP/1 parser: /repo/src/http1/parser.rs,
   http_handler.rs, parser_error.rs, parser_state.rs, parser_type.rs and the
   macros of /repo/src/fsm.rs.  One Gallina function per Rust state function,
   in source order.  No proofs in this file. *)

From Coq Require Import NArith List Bool Arith String.
From Verif Require Import Bytes ByteStream.
Import ListNotations.
Local Open Scope N_scope.

(* ------------------------------------------------------------------ *)
(* Types                                                                *)
(* ------------------------------------------------------------------ *)

(* enum ParserState, /repo/src/http1/parser_state.rs:22-341, variants in
   source order.  The same type names the state functions: the function of
   variant Xyz is the one whose snake_case name is xyz; set_state! always sets
   a matching pair (checked over all 153 uses in parser.rs). *)
Inductive pstate :=
| StDead
| StStripDetect
| StDetect1
| StDetect2
| StDetect3
| StDetect4
| StDetect5
| StRequestMethod
| StRequestUrl1
| StRequestUrl2
| StRequestHttp1
| StRequestHttp2
| StRequestHttp3
| StRequestHttp4
| StRequestHttp5
| StRequestVersionMajor1
| StRequestVersionMajor2
| StRequestVersionMajor3
| StRequestVersionPeriod
| StRequestVersionMinor1
| StRequestVersionMinor2
| StRequestVersionMinor3
| StRequestVersionCr
| StResponseVersionMajor1
| StResponseVersionMajor2
| StResponseVersionMajor3
| StResponseVersionPeriod
| StResponseVersionMinor1
| StResponseVersionMinor2
| StResponseVersionMinor3
| StResponseVersionSpace
| StResponseStatusCode1
| StResponseStatusCode2
| StResponseStatusCode3
| StResponseStatusCodeSpace
| StResponseStatus1
| StResponseStatus2
| StInitialEnd
| StInitialLf
| StCheckHeaderName
| StFirstHeaderName
| StUpperHeaderName
| StLowerHeaderName
| StStripHeaderValue
| StHeaderValue
| StHeaderQuotedValue
| StHeaderEscapedValue
| StHeaderCr1
| StHeaderLf1
| StHeaderCr2
| StHeaderLf2
| StHeaderEnd
| StChunkLength1
| StChunkLength2
| StChunkLength3
| StChunkLength4
| StChunkLength5
| StChunkLength6
| StChunkLength7
| StChunkLength8
| StChunkLengthCr
| StStripChunkExtensionName
| StUpperChunkExtensionName
| StLowerChunkExtensionName
| StStripChunkExtensionValue
| StChunkExtensionValue
| StChunkExtensionQuotedValue
| StChunkExtensionEscapedValue
| StChunkExtensionFinished
| StChunkExtensionsFinished
| StChunkLengthLf
| StChunkData
| StChunkDataCr
| StChunkDataLf
| StMultipartHyphen1
| StMultipartHyphen2
| StMultipartBoundary
| StMultipartDetectData
| StMultipartDataByByte
| StMultipartDataByLength
| StMultipartDataByLengthCr
| StMultipartDataByLengthLf
| StMultipartDataByByteLf
| StMultipartBoundaryCr
| StMultipartBoundaryLf
| StMultipartEnd
| StFirstUrlEncodedName
| StUrlEncodedName
| StUrlEncodedNameHex1
| StUrlEncodedNameHex2
| StUrlEncodedNamePlus
| StUrlEncodedValue
| StUrlEncodedValueHex1
| StUrlEncodedValueHex2
| StUrlEncodedValuePlus
| StBodyFinished
| StFinished.

(* enum ParserError, /repo/src/http1/parser_error.rs:22-72.  The variants
   ChunkLengthOverflow and Multipart are never produced by the parser and are
   left out. *)
Inductive perror :=
| ErChunkExtensionName (b : byte)
| ErChunkExtensionValue (b : byte)
| ErChunkLength (b : byte)
| ErCrlfSequence (b : byte)
| ErDead
| ErHeaderName (b : byte)
| ErHeaderValue (b : byte)
| ErMethod (b : byte)
| ErMultipartBoundary (b : byte)
| ErStatus (b : byte)
| ErStatusCode (b : byte)
| ErUrl (b : byte)
| ErUrlEncodedName (b : byte)
| ErUrlEncodedValue (b : byte)
| ErVersion (b : byte).

(* enum ParserType, /repo/src/http1/parser_type.rs:20-32 *)
Inductive ptype := Chunked | Head | Multipart | UrlEncoded.

(* The handler methods of trait HttpHandler that receive a byte slice,
   /repo/src/http1/http_handler.rs:58-278. *)
Inductive dkind :=
| KMethod | KUrl | KStatus | KHeaderName | KHeaderValue
| KChunkData | KChunkExtName | KChunkExtValue
| KMultipartData | KUrlName | KUrlValue.

(* One call of a handler method, /repo/src/http1/http_handler.rs:22-290. *)
Inductive event :=
| EData (k : dkind) (d : list byte)
| EVersion (major minor : N)
| EStatusCode (code : N)
| EInitialFinished
| EHeadersFinished
| EBodyFinished
| EChunkBegin
| EChunkLength (size : N)
| EChunkExtFinished
| EChunkExtsFinished
| EMultipartBegin
| EUrlBegin
| EContentLength.

(* An implementation of HttpHandler.  The handler may keep any state, which is
   determined by the calls made to it so far; so it is modelled by functions
   of that history: the boolean answered to a callback, and the answer to
   content_length().  Arbitrary functions are allowed everywhere.
   /repo/src/http1/http_handler.rs:22-290 *)
Record handler := Handler {
  h_ret  : list event -> event -> bool;
  h_clen : list event -> option N
}.

(* enum Success, /repo/src/fsm.rs:200-233 *)
Inductive success :=
| SCallback (n : nat)
| SEos (n : nat)
| SFinished (n : nat).

(* Abnormal ends (no counterpart value in the source): a panic (failed bounds
   check, unwrap of None, arithmetic overflow) or an unchecked read outside
   the stream (undefined behaviour). *)
Inductive fault :=
| FIndexPanic        (* array or slice index out of range *)
| FUnwrapPanic       (* Option::unwrap on None *)
| FOverflow          (* usize subtraction below zero *)
| FOutOfBounds.      (* unsafe read beyond the stream *)

(* Result<ParserValue, ParserError> of a state function,
   /repo/src/fsm.rs:188-194, extended with faults. *)
Inductive outcome :=
| Continue
| Exit (s : success)
| Fail (e : perror)
| Faulted (f : fault).

(* struct Parser, /repo/src/http1/parser.rs:131-153.  bit_data is a u32;
   byte_count and length are usize.  byte_count is unbounded in the model (no
   wrap-around at 2^64). *)
Record parser := Parser {
  bit_data    : N;
  boundary    : option (list byte);
  byte_count  : N;
  plength     : N;
  parser_type : ptype;
  state       : pstate;
  state_fn    : pstate
}.

(* What a state function works on: the parser (self), the context, and the
   history of handler calls. *)
Record mach := Mach { mp : parser; mc : ctx; ml : list event }.

(* ------------------------------------------------------------------ *)
(* Field updates                                                        *)
(* ------------------------------------------------------------------ *)

(* self.bit_data = v *)
Definition with_bits (p : parser) (v : N) : parser :=
  Parser v (boundary p) (byte_count p) (plength p) (parser_type p) (state p) (state_fn p).

(* self.length = v *)
Definition with_length (p : parser) (v : N) : parser :=
  Parser (bit_data p) (boundary p) (byte_count p) v (parser_type p) (state p) (state_fn p).

(* self.byte_count += n *)
Definition add_count (p : parser) (n : nat) : parser :=
  Parser (bit_data p) (boundary p) (byte_count p + N.of_nat n) (plength p)
         (parser_type p) (state p) (state_fn p).

(* self.state = s (without the state function), /repo/src/http1/parser.rs:225 *)
Definition with_state_only (p : parser) (s : pstate) : parser :=
  Parser (bit_data p) (boundary p) (byte_count p) (plength p) (parser_type p) s (state_fn p).

(* self.parser_type = t *)
Definition with_type (p : parser) (t : ptype) : parser :=
  Parser (bit_data p) (boundary p) (byte_count p) (plength p) t (state p) (state_fn p).

(* set_state!, /repo/src/fsm.rs:150-155 *)
Definition p_set_state (p : parser) (s : pstate) : parser :=
  Parser (bit_data p) (boundary p) (byte_count p) (plength p) (parser_type p) s s.

(* Replace the parser / the context of a machine state (plumbing). *)
Definition with_p (m : mach) (p : parser) : mach := Mach p (mc m) (ml m).
(* see with_p *)
Definition with_c (m : mach) (c : ctx) : mach := Mach (mp m) c (ml m).

(* set_state! on the machine state, /repo/src/fsm.rs:150-155 *)
Definition set_state (m : mach) (s : pstate) : mach := with_p m (p_set_state (mp m) s).

(* ------------------------------------------------------------------ *)
(* Bit fields                                                           *)
(* ------------------------------------------------------------------ *)

(* Truncation to u32 ("as u32", bits shifted out by << on u32). *)
Definition u32 (v : N) : N := v mod 2 ^ 32.

(* Bitwise complement on u32 *)
Definition not32 (v : N) : N := N.lxor v (2 ^ 32 - 1).

(* LOWER14_MASK, UPPER14_MASK, /repo/src/http1/parser.rs:41,47 *)
Definition MASK14 : N := 16383. (* 0x3FFF *)

(* get_lower14!, /repo/src/http1/parser.rs:57-61, LOWER14_SHIFT = 4 *)
Definition get_lower14 (p : parser) : N := N.land (N.shiftr (bit_data p) 4) MASK14.

(* get_upper14!, /repo/src/http1/parser.rs:64-68, UPPER14_SHIFT = 18 *)
Definition get_upper14 (p : parser) : N := N.land (N.shiftr (bit_data p) 18) MASK14.

(* set_lower14!, /repo/src/http1/parser.rs:109-116 *)
Definition set_lower14 (p : parser) (v : N) : parser :=
  let bits := u32 v in
  with_bits p (N.lor (N.land (bit_data p) (not32 (u32 (N.shiftl MASK14 4))))
                     (u32 (N.shiftl bits 4))).

(* set_upper14!, /repo/src/http1/parser.rs:119-126 *)
Definition set_upper14 (p : parser) (v : N) : parser :=
  let bits := u32 v in
  with_bits p (N.lor (N.land (bit_data p) (not32 (u32 (N.shiftl MASK14 18))))
                     (u32 (N.shiftl bits 18))).

(* ------------------------------------------------------------------ *)
(* Macros of fsm.rs                                                     *)
(* ------------------------------------------------------------------ *)

(* Calling a handler method: the call is appended to the history and the
   handler's answer returned. *)
Definition call (h : handler) (m : mach) (e : event) : mach * bool :=
  (Mach (mp m) (mc m) (ml m ++ [e]), h_ret h (ml m) e).

(* exit_callback!, /repo/src/fsm.rs:98-108 *)
Definition exit_callback (m : mach) : mach * outcome :=
  (m, Exit (SCallback (cindex (mc m)))).

(* exit_eos!, /repo/src/fsm.rs:111-115 *)
Definition exit_eos (m : mach) : mach * outcome :=
  (m, Exit (SEos (cindex (mc m)))).

(* exit_finished!, /repo/src/fsm.rs:129-133 *)
Definition exit_finished (m : mach) : mach * outcome :=
  (m, Exit (SFinished (cindex (mc m)))).

(* exit_error!, /repo/src/fsm.rs:118-126, and "Err(..)" at the end of the state functions *)
Definition fail (m : mach) (e : perror) : mach * outcome := (m, Fail e).

(* A panic or out-of-bounds read, see fault. *)
Definition faulted (m : mach) (f : fault) : mach * outcome := (m, Faulted f).

(* transition!(parser, context), /repo/src/fsm.rs:167-171 *)
Definition remark (m : mach) : mach * outcome :=
  (with_c m (bs_mark (mc m)), Continue).

(* transition!, /repo/src/fsm.rs:158-165 *)
Definition transition (m : mach) (s : pstate) : mach * outcome :=
  remark (set_state m s).

(* transition_no_remark!, /repo/src/fsm.rs:177-183 *)
Definition transition_no_remark (m : mach) (s : pstate) : mach * outcome :=
  (set_state m s, Continue).

(* callback! with data, /repo/src/fsm.rs:24-30; also the explicit
   "if handler.on_x() { .. } exit_callback!(..)" of parser.rs. *)
Definition callback_data (h : handler) (m : mach) (e : event)
           (exec : mach -> mach * outcome) : mach * outcome :=
  let '(m, ok) := call h m e in
  if ok then exec m else exit_callback m.

(* callback! without data, /repo/src/fsm.rs:32-42 *)
Definition callback_slice (h : handler) (m : mach) (k : dkind)
           (exec : mach -> mach * outcome) : mach * outcome :=
  if (0 <? bs_slice_length (mc m))%nat
  then callback_data h m (EData k (bs_slice (mc m))) exec
  else exec m.

(* callback_eos_expr!, /repo/src/fsm.rs:46-52 *)
Definition callback_eos (h : handler) (m : mach) (k : dkind) : mach * outcome :=
  callback_slice h m k exit_eos.

(* callback_ignore_transition!, /repo/src/fsm.rs:56-72 *)
Definition callback_ignore_transition (h : handler) (m : mach) (k : dkind)
           (s : pstate) : mach * outcome :=
  let m := set_state m s in
  if (1 <? bs_slice_length (mc m))%nat
  then callback_data h m (EData k (bs_slice_ignore (mc m))) remark
  else remark m.

(* callback_transition! with data, /repo/src/fsm.rs:80-86; also
   "set_state!(..); if handler.on_x() { transition!(..); } exit_callback!(..)" *)
Definition callback_transition_data (h : handler) (m : mach) (e : event)
           (s : pstate) : mach * outcome :=
  callback_data h (set_state m s) e remark.

(* callback_transition! without data, /repo/src/fsm.rs:88-94 *)
Definition callback_transition_slice (h : handler) (m : mach) (k : dkind)
           (s : pstate) : mach * outcome :=
  callback_slice h (set_state m s) k remark.

(* "exit_if_eos!(self, context); bs_next!(context);" (/repo/src/fsm.rs:136-140),
   continuing with the machine state and the byte fetched. *)
Definition next_or_eos (m : mach) (k : mach -> byte -> mach * outcome) : mach * outcome :=
  match bs_next (mc m) with
  | None => exit_eos m
  | Some c => k (with_c m c) (cbyte c)
  end.

(* A collection loop: the byte it stopped at is passed on; "k_eos" is the
   end-of-stream expression. *)
Definition collecting (r : collected) (m : mach)
           (k_eos : mach -> mach * outcome)
           (k : mach -> byte -> mach * outcome) : mach * outcome :=
  match r with
  | CEos c => k_eos (with_c m c)
  | CStop c => k (with_c m c) (cbyte c)
  | CPanic c => faulted (with_c m c) FIndexPanic
  end.

(* "if bs_starts_withN!(context, lit) { yes } else { no }" *)
Definition if_starts_with (m : mach) (lit : list byte)
           (yes no : mach * outcome) : mach * outcome :=
  match bs_starts_with (mc m) lit with
  | None => faulted m FOutOfBounds
  | Some true => yes
  | Some false => no
  end.

(* bs_replay! on the machine state *)
Definition replay (m : mach) : mach := with_c m (bs_replay (mc m)).

(* bs_jump! on the machine state *)
Definition jump (m : mach) (n : nat) : mach := with_c m (bs_jump (mc m) n).

(* ------------------------------------------------------------------ *)
(* Detection states                                                     *)
(* ------------------------------------------------------------------ *)

(* strip_detect, /repo/src/http1/parser.rs:418-447: fetch up to the first byte
   that is not CR, LF, TAB or space (the leading "if" and the loop of the
   source are the same loop), hand it back. *)
Definition strip_detect (h : handler) (m : mach) : mach * outcome :=
  collecting
    (bs_collect (fun b => Some (negb ((b =? 13) || (b =? 10) || (b =? 9) || (b =? 32)))) (mc m)) m
    exit_eos
    (fun m _ => transition (replay m) StDetect1).

(* detect1, macro method!, /repo/src/http1/parser.rs:452-466 *)
Definition detect1_method (h : handler) (m : mach) (method : list byte) (len : nat)
  : mach * outcome :=
  callback_transition_data h (jump m len) (EData KMethod method) StRequestUrl1.

(* detect1, macro version!, /repo/src/http1/parser.rs:468-483 *)
Definition detect1_version (h : handler) (m : mach) (major minor : N) (len : nat)
  : mach * outcome :=
  callback_transition_data h (jump m len) (EVersion major minor) StResponseStatusCode1.

(* detect1 from line 543 on: fetch one byte, /repo/src/http1/parser.rs:543-557 *)
Definition detect1_slow (m : mach) : mach * outcome :=
  next_or_eos m (fun m b =>
    if is_upper b then transition_no_remark m StRequestMethod
    else fail m (ErMethod b)).

(* detect1 lines 516-540: comparison with known methods *)
Definition detect1_methods (h : handler) (m : mach) : mach * outcome :=
  if bs_has_bytes (mc m) 8 then
    if_starts_with m (bs "GET ") (detect1_method h m (bs "GET") 4)
    (if cbyte (mc m) =? 80 then
       if_starts_with m (bs "POST ") (detect1_method h m (bs "POST") 5)
       (if_starts_with m (bs "PUT ") (detect1_method h m (bs "PUT") 4)
       (detect1_slow m))
     else
       if_starts_with m (bs "DELETE ") (detect1_method h m (bs "DELETE") 7)
       (if_starts_with m (bs "CONNECT ") (detect1_method h m (bs "CONNECT") 8)
       (if_starts_with m (bs "OPTIONS ") (detect1_method h m (bs "OPTIONS") 8)
       (if_starts_with m (bs "HEAD ") (detect1_method h m (bs "HEAD") 5)
       (if_starts_with m (bs "TRACE ") (detect1_method h m (bs "TRACE") 6)
       (if_starts_with m (bs "PRI ") (detect1_method h m (bs "PRI") 4)
       (detect1_slow m)))))))
  else detect1_slow m.

(* detect1, /repo/src/http1/parser.rs:450-558 *)
Definition detect1 (h : handler) (m : mach) : mach * outcome :=
  if_starts_with m (bs "H")
    (if bs_has_bytes (mc m) 9 then
       if_starts_with m (bs "HTTP/1.1 ") (detect1_version h m 1 1 9)
       (if_starts_with m (bs "HTTP/2.0 ") (detect1_version h m 2 0 9)
       (if_starts_with m (bs "HTTP/1.0 ") (detect1_version h m 1 0 9)
       (if_starts_with m (bs "HTTP/") (transition (jump m 5) StResponseVersionMajor1)
       (detect1_methods h m))))
     else transition (jump m 1) StDetect2)
    (detect1_methods h m).

(* Common shape of detect2 .. detect5: the expected byte leads on, another
   upper-case letter starts a method. *)
Definition detect_n (m : mach) (expect : byte) (s : pstate) : mach * outcome :=
  next_or_eos m (fun m b =>
    if b =? expect then transition m s
    else if is_upper b then transition_no_remark m StRequestMethod
    else fail m (ErMethod b)).

(* detect2, /repo/src/http1/parser.rs:561-586 *)
Definition detect2 (h : handler) (m : mach) := detect_n m 84 StDetect3.
(* detect3, /repo/src/http1/parser.rs:589-614 *)
Definition detect3 (h : handler) (m : mach) := detect_n m 84 StDetect4.
(* detect4, /repo/src/http1/parser.rs:617-642 *)
Definition detect4 (h : handler) (m : mach) := detect_n m 80 StDetect5.
(* detect5, /repo/src/http1/parser.rs:645-670 *)
Definition detect5 (h : handler) (m : mach) := detect_n m 47 StResponseVersionMajor1.

(* ------------------------------------------------------------------ *)
(* Request states                                                       *)
(* ------------------------------------------------------------------ *)

(* request_method, /repo/src/http1/parser.rs:677-703 *)
Definition request_method (h : handler) (m : mach) : mach * outcome :=
  collecting (bs_collect (fun b => Some ((b <? 65) || (90 <? b))) (mc m)) m
    (fun m => callback_eos h m KMethod)
    (fun m b =>
       if b =? 32 then callback_ignore_transition h m KMethod StRequestUrl1
       else fail m (ErMethod b)).

(* request_url1, /repo/src/http1/parser.rs:706-721 *)
Definition request_url1 (h : handler) (m : mach) : mach * outcome :=
  next_or_eos m (fun m b =>
    if is_visible_7bit b then transition_no_remark m StRequestUrl2
    else fail m (ErUrl b)).

(* request_url2, /repo/src/http1/parser.rs:724-745 *)
Definition request_url2 (h : handler) (m : mach) : mach * outcome :=
  collecting (collect_visible_7bit (fun _ => false) (mc m)) m
    (fun m => callback_eos h m KUrl)
    (fun m b =>
       if b =? 32 then callback_ignore_transition h m KUrl StRequestHttp1
       else fail m (ErUrl b)).

(* request_http1 from line 777 on, /repo/src/http1/parser.rs:777-789 *)
Definition request_http1_slow (m : mach) : mach * outcome :=
  next_or_eos m (fun m b =>
    if b =? 72 then transition m StRequestHttp2 else fail m (ErVersion b)).

(* request_http1, macro version!, /repo/src/http1/parser.rs:750-761 *)
Definition request_http1_version (h : handler) (m : mach) (major minor : N) (len : nat)
  : mach * outcome :=
  callback_transition_data h (jump m len) (EVersion major minor) StInitialEnd.

(* request_http1, /repo/src/http1/parser.rs:748-790 *)
Definition request_http1 (h : handler) (m : mach) : mach * outcome :=
  if bs_has_bytes (mc m) 9 then
    if_starts_with m (bs "HTTP/1.1" ++ [13]) (request_http1_version h m 1 1 9)
    (if_starts_with m (bs "HTTP/2.0" ++ [13]) (request_http1_version h m 2 0 9)
    (if_starts_with m (bs "HTTP/1.0" ++ [13]) (request_http1_version h m 1 0 9)
    (request_http1_slow m)))
  else request_http1_slow m.

(* Common shape of request_http2 .. request_http5 and other states expecting
   exactly one byte: the expected byte leads to state s, else an error. *)
Definition expect_byte (m : mach) (expect : byte) (s : pstate) (err : byte -> perror)
  : mach * outcome :=
  next_or_eos m (fun m b =>
    if b =? expect then transition m s else fail m (err b)).

(* request_http2, /repo/src/http1/parser.rs:793-808 *)
Definition request_http2 (h : handler) (m : mach) := expect_byte m 84 StRequestHttp3 ErVersion.
(* request_http3, /repo/src/http1/parser.rs:811-826 *)
Definition request_http3 (h : handler) (m : mach) := expect_byte m 84 StRequestHttp4 ErVersion.
(* request_http4, /repo/src/http1/parser.rs:829-844 *)
Definition request_http4 (h : handler) (m : mach) := expect_byte m 80 StRequestHttp5 ErVersion.
(* request_http5, /repo/src/http1/parser.rs:847-862 *)
Definition request_http5 (h : handler) (m : mach) := expect_byte m 47 StRequestVersionMajor1 ErVersion.

(* Common body of request_version_major1 (865-885) and
   response_version_major1 (1064-1084). *)
Definition version_major1 (m : mach) (s : pstate) : mach * outcome :=
  next_or_eos m (fun m b =>
    let m := with_p m (set_upper14 (set_lower14 (mp m) 0) 0) in
    if is_digit b
    then transition (with_p m (set_lower14 (mp m) (b - 48))) s
    else fail m (ErVersion b)).

(* Common body of request_version_major2/3 (888-939) and
   response_version_major2/3 (1087-1138). *)
Definition version_major23 (m : mach) (s_minor1 s_next : pstate) : mach * outcome :=
  next_or_eos m (fun m b =>
    if b =? 46 then transition m s_minor1
    else if is_digit b
    then transition (with_p m (set_lower14 (mp m) (get_lower14 (mp m) * 10 + (b - 48)))) s_next
    else fail m (ErVersion b)).

(* Common body of request_version_minor1 (960-977) and
   response_version_minor1 (1159-1176). *)
Definition version_minor1 (m : mach) (s : pstate) : mach * outcome :=
  next_or_eos m (fun m b =>
    if is_digit b
    then transition (with_p m (set_upper14 (mp m) (b - 48))) s
    else fail m (ErVersion b)).

(* Common body of request_version_minor2/3 (980-1035, fin = CR) and
   response_version_minor2/3 (1179-1234, fin = space). *)
Definition version_minor23 (m : mach) (fin : byte) (s_fin s_next : pstate) : mach * outcome :=
  next_or_eos m (fun m b =>
    if b =? fin then transition (replay m) s_fin
    else if is_digit b
    then transition (with_p m (set_upper14 (mp m) (get_upper14 (mp m) * 10 + (b - 48)))) s_next
    else fail m (ErVersion b)).

(* Common body of request_version_cr (1038-1057) and response_version_space
   (1237-1260). *)
Definition version_end (h : handler) (m : mach) (fin : byte) (s : pstate) : mach * outcome :=
  next_or_eos m (fun m b =>
    if b =? fin
    then callback_transition_data h m (EVersion (get_lower14 (mp m)) (get_upper14 (mp m))) s
    else fail m (ErVersion b)).

(* request_version_major1, /repo/src/http1/parser.rs:865-885 *)
Definition request_version_major1 (h : handler) (m : mach) :=
  version_major1 m StRequestVersionMajor2.
(* request_version_major2, /repo/src/http1/parser.rs:888-912 *)
Definition request_version_major2 (h : handler) (m : mach) :=
  version_major23 m StRequestVersionMinor1 StRequestVersionMajor3.
(* request_version_major3, /repo/src/http1/parser.rs:915-939 *)
Definition request_version_major3 (h : handler) (m : mach) :=
  version_major23 m StRequestVersionMinor1 StRequestVersionPeriod.
(* request_version_period, /repo/src/http1/parser.rs:942-957 *)
Definition request_version_period (h : handler) (m : mach) :=
  expect_byte m 46 StRequestVersionMinor1 ErVersion.
(* request_version_minor1, /repo/src/http1/parser.rs:960-977 *)
Definition request_version_minor1 (h : handler) (m : mach) :=
  version_minor1 m StRequestVersionMinor2.
(* request_version_minor2, /repo/src/http1/parser.rs:980-1006 *)
Definition request_version_minor2 (h : handler) (m : mach) :=
  version_minor23 m 13 StRequestVersionCr StRequestVersionMinor3.
(* request_version_minor3, /repo/src/http1/parser.rs:1009-1035 *)
Definition request_version_minor3 (h : handler) (m : mach) :=
  version_minor23 m 13 StRequestVersionCr StRequestVersionCr.
(* request_version_cr, /repo/src/http1/parser.rs:1038-1057 *)
Definition request_version_cr (h : handler) (m : mach) :=
  version_end h m 13 StInitialEnd.

(* ------------------------------------------------------------------ *)
(* Response states                                                      *)
(* ------------------------------------------------------------------ *)

(* response_version_major1, /repo/src/http1/parser.rs:1064-1084 *)
Definition response_version_major1 (h : handler) (m : mach) :=
  version_major1 m StResponseVersionMajor2.
(* response_version_major2, /repo/src/http1/parser.rs:1087-1111 *)
Definition response_version_major2 (h : handler) (m : mach) :=
  version_major23 m StResponseVersionMinor1 StResponseVersionMajor3.
(* response_version_major3, /repo/src/http1/parser.rs:1114-1138 *)
Definition response_version_major3 (h : handler) (m : mach) :=
  version_major23 m StResponseVersionMinor1 StResponseVersionPeriod.
(* response_version_period, /repo/src/http1/parser.rs:1141-1156 *)
Definition response_version_period (h : handler) (m : mach) :=
  expect_byte m 46 StResponseVersionMinor1 ErVersion.
(* response_version_minor1, /repo/src/http1/parser.rs:1159-1176 *)
Definition response_version_minor1 (h : handler) (m : mach) :=
  version_minor1 m StResponseVersionMinor2.
(* response_version_minor2, /repo/src/http1/parser.rs:1179-1205 *)
Definition response_version_minor2 (h : handler) (m : mach) :=
  version_minor23 m 32 StResponseVersionSpace StResponseVersionMinor3.
(* response_version_minor3, /repo/src/http1/parser.rs:1208-1234 *)
Definition response_version_minor3 (h : handler) (m : mach) :=
  version_minor23 m 32 StResponseVersionSpace StResponseVersionSpace.
(* response_version_space, /repo/src/http1/parser.rs:1237-1260 *)
Definition response_version_space (h : handler) (m : mach) :=
  version_end h m 32 StResponseStatusCode1.

(* bs_next! without a preceding end-of-stream check in the same step. *)
Definition next_unchecked (m : mach) (k : mach -> byte -> mach * outcome) : mach * outcome :=
  match bs_next (mc m) with
  | None => faulted m FIndexPanic
  | Some c => k (with_c m c) (cbyte c)
  end.

(* response_status_code1, /repo/src/http1/parser.rs:1263-1315 *)
Definition response_status_code1 (h : handler) (m : mach) : mach * outcome :=
  if (bs_available (mc m) =? 0)%nat then exit_eos m
  else if (2 <? bs_available (mc m))%nat then
    next_unchecked m (fun m b1 =>
    if negb (is_digit b1) then fail m (ErStatusCode b1) else
    let m := with_p m (set_lower14 (mp m) ((b1 - 48) * 100)) in
    next_unchecked m (fun m b2 =>
    if negb (is_digit b2) then fail m (ErStatusCode b2) else
    let m := with_p m (set_lower14 (mp m) (get_lower14 (mp m) + (b2 - 48) * 10)) in
    next_unchecked m (fun m b3 =>
    if negb (is_digit b3) then fail m (ErStatusCode b3) else
    let m := with_p m (set_lower14 (mp m) (get_lower14 (mp m) + (b3 - 48))) in
    transition m StResponseStatusCodeSpace)))
  else
    next_unchecked m (fun m b =>
    if is_digit b
    then transition (with_p m (set_lower14 (mp m) ((b - 48) * 100))) StResponseStatusCode2
    else fail m (ErStatusCode b)).

(* response_status_code2, /repo/src/http1/parser.rs:1318-1335 *)
Definition response_status_code2 (h : handler) (m : mach) : mach * outcome :=
  next_or_eos m (fun m b =>
    if is_digit b
    then transition (with_p m (set_lower14 (mp m) (get_lower14 (mp m) + (b - 48) * 10)))
                    StResponseStatusCode3
    else fail m (ErStatusCode b)).

(* response_status_code3, /repo/src/http1/parser.rs:1338-1355 *)
Definition response_status_code3 (h : handler) (m : mach) : mach * outcome :=
  next_or_eos m (fun m b =>
    if is_digit b
    then transition (with_p m (set_lower14 (mp m) (get_lower14 (mp m) + (b - 48))))
                    StResponseStatusCodeSpace
    else fail m (ErStatusCode b)).

(* response_status_code_space, /repo/src/http1/parser.rs:1358-1381 *)
Definition response_status_code_space (h : handler) (m : mach) : mach * outcome :=
  next_or_eos m (fun m b =>
    if b =? 32
    then callback_transition_data h m (EStatusCode (get_lower14 (mp m))) StResponseStatus1
    else fail m (ErStatusCode b)).

(* "context.byte > 0x1F && context.byte != 0x7F", /repo/src/http1/parser.rs:1390,1411 *)
Definition is_status_byte (b : byte) : bool := (31 <? b) && negb (b =? 127).

(* response_status1, /repo/src/http1/parser.rs:1384-1402 *)
Definition response_status1 (h : handler) (m : mach) : mach * outcome :=
  next_or_eos m (fun m b =>
    if is_status_byte b then transition (replay m) StResponseStatus2
    else fail m (ErStatus b)).

(* response_status2, /repo/src/http1/parser.rs:1405-1433: the loop leaves with
   an error on a control byte other than CR; the model stops at it and then
   fails, which is the same. *)
Definition response_status2 (h : handler) (m : mach) : mach * outcome :=
  collecting (bs_collect (fun b => Some (negb (is_status_byte b))) (mc m)) m
    (fun m => callback_eos h m KStatus)
    (fun m b =>
       if b =? 13 then callback_ignore_transition h m KStatus StInitialEnd
       else fail m (ErStatus b)).

(* ------------------------------------------------------------------ *)
(* Header states                                                        *)
(* ------------------------------------------------------------------ *)

(* initial_end, /repo/src/http1/parser.rs:1440-1449 *)
Definition initial_end (h : handler) (m : mach) : mach * outcome :=
  callback_transition_data h m EInitialFinished StInitialLf.

(* initial_lf, /repo/src/http1/parser.rs:1452-1467 *)
Definition initial_lf (h : handler) (m : mach) := expect_byte m 10 StHeaderCr2 ErCrlfSequence.

(* check_header_name, /repo/src/http1/parser.rs:1470-1493 *)
Definition check_header_name (h : handler) (m : mach) : mach * outcome :=
  next_or_eos m (fun m b =>
    if (b =? 32) || (b =? 9) then transition m StHeaderValue
    else transition (replay m) StFirstHeaderName).

(* first_header_name, macro name!, /repo/src/http1/parser.rs:1498-1512 *)
Definition header_name_found (h : handler) (m : mach) (name : list byte) (len : nat)
  : mach * outcome :=
  callback_transition_data h (jump m len) (EData KHeaderName name) StStripHeaderValue.

(* A chain "if bs_starts_withN!(lit1) { name!(name1, len1) } else if ..." of
   first_header_name; k is what follows the chain. *)
Fixpoint name_chain (h : handler) (m : mach) (tbl : list (list byte * list byte * nat))
         (k : mach * outcome) : mach * outcome :=
  match tbl with
  | [] => k
  | (lit, name, len) :: tbl' =>
      if_starts_with m lit (header_name_found h m name len) (name_chain h m tbl' k)
  end.

(* first_header_name from line 1581 on, /repo/src/http1/parser.rs:1581-1596 *)
Definition first_header_name_slow (m : mach) : mach * outcome :=
  next_or_eos m (fun m b =>
    if is_visible_7bit b then transition (replay m) StUpperHeaderName
    else fail m (ErHeaderName b)).

(* The names compared when context.byte is 'A', /repo/src/http1/parser.rs:1518-1528 *)
Definition names_A : list (list byte * list byte * nat) :=
  [ (bs "Accept:", bs "accept", 7%nat);
    (bs "Accept-Charset:", bs "accept-charset", 15%nat);
    (bs "Accept-Encoding:", bs "accept-encoding", 16%nat);
    (bs "Accept-Language:", bs "accept-language", 16%nat);
    (bs "Authorization:", bs "authorization", 14%nat) ].
(* The names compared when context.byte is 'U', /repo/src/http1/parser.rs:1532-1536 *)
Definition names_U : list (list byte * list byte * nat) :=
  [ (bs "User-Agent:", bs "user-agent", 11%nat);
    (bs "Upgrade:", bs "upgrade", 8%nat) ].
(* The names compared when context.byte is 'C', /repo/src/http1/parser.rs:1538-1550 *)
Definition names_C : list (list byte * list byte * nat) :=
  [ (bs "Connection:", bs "connection", 11%nat);
    (bs "Content-Type:", bs "content-type", 13%nat);
    (bs "Content-Length:", bs "content-length", 15%nat);
    (bs "Cookie:", bs "cookie", 7%nat);
    (bs "Cache-Control:", bs "cache-control", 14%nat);
    (bs "Content-Security-Policy:", bs "content-security-policy", 24%nat) ].
(* The names compared when context.byte is 'L', /repo/src/http1/parser.rs:1552-1556 *)
Definition names_L : list (list byte * list byte * nat) :=
  [ (bs "Location:", bs "location", 9%nat);
    (bs "Last-Modified:", bs "last-modified", 14%nat) ].
(* The names compared when context.byte is 'X', /repo/src/http1/parser.rs:1564-1574 *)
Definition names_X : list (list byte * list byte * nat) :=
  [ (bs "X-Powered-By:", bs "x-powered-by", 13%nat);
    (bs "X-Forwarded-For:", bs "x-forwarded-for", 16%nat);
    (bs "X-Forwarded-Host:", bs "x-forwarded-host", 17%nat);
    (bs "X-XSS-Protection:", bs "x-xss-protection", 17%nat);
    (bs "X-WebKit-CSP:", bs "x-webkit-csp", 13%nat) ].

(* first_header_name, /repo/src/http1/parser.rs:1496-1597 *)
Definition first_header_name (h : handler) (m : mach) : mach * outcome :=
  let slow := first_header_name_slow m in
  let cb := cbyte (mc m) in
  if bs_has_bytes (mc m) 24 then
    if cb =? 65 then name_chain h m names_A slow
    else if_starts_with m (bs "Host:") (header_name_found h m (bs "host") 5)
    (if cb =? 85 then name_chain h m names_U slow
     else if cb =? 67 then name_chain h m names_C slow
     else if cb =? 76 then name_chain h m names_L slow
     else if_starts_with m (bs "Pragma:") (header_name_found h m (bs "pragma") 7)
     (if_starts_with m (bs "Set-Cookie:") (header_name_found h m (bs "set-cookie") 11)
     (if_starts_with m (bs "Transfer-Encoding:")
                     (header_name_found h m (bs "transfer-encoding") 18)
     (if cb =? 88 then name_chain h m names_X slow
      else if_starts_with m (bs "WWW-Authenticate:")
                     (header_name_found h m (bs "www-authenticate") 17)
      slow))))
  else slow.

(* upper_header_name, /repo/src/http1/parser.rs:1600-1626 *)
Definition upper_header_name (h : handler) (m : mach) : mach * outcome :=
  next_or_eos m (fun m b =>
    if is_upper b
    then callback_transition_data h m (EData KHeaderName [b + 32]) StLowerHeaderName
    else transition (replay m) StLowerHeaderName).

(* lower_header_name, /repo/src/http1/parser.rs:1629-1665 *)
Definition lower_header_name (h : handler) (m : mach) : mach * outcome :=
  collecting (collect_tokens is_upper (mc m)) m
    (fun m => callback_eos h m KHeaderName)
    (fun m b =>
       if is_upper b
       then callback_transition_slice h (replay m) KHeaderName StUpperHeaderName
       else if b =? 58
       then callback_ignore_transition h m KHeaderName StStripHeaderValue
       else fail m (ErHeaderName b)).

(* strip_header_value, /repo/src/http1/parser.rs:1668-1690 *)
Definition strip_header_value (h : handler) (m : mach) : mach * outcome :=
  collecting (consume_linear_space (mc m)) m
    exit_eos
    (fun m b =>
       if is_visible_7bit b then transition (replay m) StHeaderValue
       else fail m (ErHeaderValue b)).

(* header_value, /repo/src/http1/parser.rs:1693-1721 *)
Definition header_value (h : handler) (m : mach) : mach * outcome :=
  collecting (collect_field (fun _ => false) (mc m)) m
    (fun m => callback_eos h m KHeaderValue)
    (fun m b =>
       if b =? 13 then callback_ignore_transition h m KHeaderValue StHeaderLf1
       else if b =? 34 then transition_no_remark m StHeaderQuotedValue
       else fail m (ErHeaderValue b)).

(* header_quoted_value, /repo/src/http1/parser.rs:1724-1750 *)
Definition header_quoted_value (h : handler) (m : mach) : mach * outcome :=
  collecting (collect_quoted_field (mc m)) m
    (fun m => callback_eos h m KHeaderValue)
    (fun m b =>
       if b =? 34 then transition_no_remark m StHeaderValue
       else if b =? 92 then transition_no_remark m StHeaderEscapedValue
       else fail m (ErHeaderValue b)).

(* "context.byte > 0x1F && context.byte < 0x7B", /repo/src/http1/parser.rs:1764,2385 *)
Definition is_escapable (b : byte) : bool := (31 <? b) && (b <? 123).

(* header_escaped_value, /repo/src/http1/parser.rs:1753-1776 *)
Definition header_escaped_value (h : handler) (m : mach) : mach * outcome :=
  match bs_next (mc m) with
  | None => callback_eos h m KHeaderValue
  | Some c =>
      let m := with_c m c in
      if is_escapable (cbyte c)
      then callback_transition_slice h m KHeaderValue StHeaderQuotedValue
      else fail m (ErHeaderValue (cbyte c))
  end.

(* header_cr1, /repo/src/http1/parser.rs:1779-1807 (no state leads here) *)
Definition header_cr1 (h : handler) (m : mach) : mach * outcome :=
  let slow := expect_byte m 13 StHeaderLf1 ErCrlfSequence in
  if bs_has_bytes (mc m) 2
  then if_starts_with m [13; 10] (transition (jump m 2) StHeaderCr2) slow
  else slow.

(* header_lf1, /repo/src/http1/parser.rs:1810-1825 *)
Definition header_lf1 (h : handler) (m : mach) := expect_byte m 10 StHeaderCr2 ErCrlfSequence.

(* header_cr2 from line 1843 on, /repo/src/http1/parser.rs:1843-1863 *)
Definition header_cr2_slow (m : mach) : mach * outcome :=
  next_or_eos m (fun m b =>
    if b =? 13 then transition m StHeaderLf2
    else transition (replay m) StCheckHeaderName).

(* header_cr2, /repo/src/http1/parser.rs:1828-1863 *)
Definition header_cr2 (h : handler) (m : mach) : mach * outcome :=
  if bs_has_bytes (mc m) 2
  then if_starts_with m [13; 10] (transition (jump m 2) StHeaderEnd) (header_cr2_slow m)
  else header_cr2_slow m.

(* header_lf2, /repo/src/http1/parser.rs:1866-1881 *)
Definition header_lf2 (h : handler) (m : mach) := expect_byte m 10 StHeaderEnd ErCrlfSequence.

(* header_end, /repo/src/http1/parser.rs:1884-1899 *)
Definition header_end (h : handler) (m : mach) : mach * outcome :=
  callback_transition_data h m EHeadersFinished
    (match parser_type (mp m) with
     | Chunked => StBodyFinished
     | Multipart => StMultipartDetectData
     | _ => StFinished
     end).

(* ------------------------------------------------------------------ *)
(* Chunk states                                                         *)
(* ------------------------------------------------------------------ *)

(* chunk_length1, /repo/src/http1/parser.rs:1906-1926 *)
Definition chunk_length1 (h : handler) (m : mach) : mach * outcome :=
  next_or_eos m (fun m b =>
    if b =? 48 then callback_transition_data h m EChunkBegin StChunkLengthCr
    else if is_hex b then
      callback_transition_data h (with_p m (with_length (mp m) (hex_to_byte b)))
                               EChunkBegin StChunkLength2
    else fail m (ErChunkLength b)).

(* "self.length <<= 4; self.length |= hex_to_byte!(..)",
   /repo/src/http1/parser.rs:1935-1936 etc.; usize is 64 bits wide. *)
Definition push_hex (len : N) (b : byte) : N :=
  N.lor ((N.shiftl len 4) mod 2 ^ 64) (hex_to_byte b).

(* Common body of chunk_length2 .. chunk_length8: a hex digit is pushed and
   leads to s, any other byte is handed back to chunk_length_cr. *)
Definition chunk_length_n (m : mach) (s : pstate) : mach * outcome :=
  next_or_eos m (fun m b =>
    if is_hex b
    then transition (with_p m (with_length (mp m) (push_hex (plength (mp m)) b))) s
    else transition (replay m) StChunkLengthCr).

(* chunk_length2, /repo/src/http1/parser.rs:1929-1954 *)
Definition chunk_length2 (h : handler) (m : mach) := chunk_length_n m StChunkLength3.
(* chunk_length3, /repo/src/http1/parser.rs:1957-1982 *)
Definition chunk_length3 (h : handler) (m : mach) := chunk_length_n m StChunkLength4.
(* chunk_length4, /repo/src/http1/parser.rs:1985-2010 *)
Definition chunk_length4 (h : handler) (m : mach) := chunk_length_n m StChunkLength5.
(* chunk_length5, /repo/src/http1/parser.rs:2013-2038 *)
Definition chunk_length5 (h : handler) (m : mach) := chunk_length_n m StChunkLength6.
(* chunk_length6, /repo/src/http1/parser.rs:2041-2066 *)
Definition chunk_length6 (h : handler) (m : mach) := chunk_length_n m StChunkLength7.
(* chunk_length7, /repo/src/http1/parser.rs:2069-2094 *)
Definition chunk_length7 (h : handler) (m : mach) := chunk_length_n m StChunkLength8.
(* chunk_length8, /repo/src/http1/parser.rs:2097-2115 *)
Definition chunk_length8 (h : handler) (m : mach) := chunk_length_n m StChunkLengthCr.

(* chunk_length_cr, /repo/src/http1/parser.rs:2118-2158 *)
Definition chunk_length_cr (h : handler) (m : mach) : mach * outcome :=
  next_or_eos m (fun m b =>
    let len := plength (mp m) in
    if b =? 13 then
      if len =? 0
      then callback_transition_data h m (EChunkLength len) StHeaderLf1
      else callback_transition_data h m (EChunkLength len) StChunkExtensionsFinished
    else if b =? 59
    then callback_transition_data h m (EChunkLength len) StStripChunkExtensionName
    else fail m (ErChunkLength b)).

(* chunk_length_lf, /repo/src/http1/parser.rs:2161-2176 *)
Definition chunk_length_lf (h : handler) (m : mach) := expect_byte m 10 StChunkData ErCrlfSequence.

(* strip_chunk_extension_name, /repo/src/http1/parser.rs:2179-2201 *)
Definition strip_chunk_extension_name (h : handler) (m : mach) : mach * outcome :=
  collecting (consume_linear_space (mc m)) m
    exit_eos
    (fun m b =>
       if is_visible_7bit b then transition (replay m) StLowerChunkExtensionName
       else fail m (ErChunkExtensionName b)).

(* lower_chunk_extension_name, /repo/src/http1/parser.rs:2204-2252 *)
Definition lower_chunk_extension_name (h : handler) (m : mach) : mach * outcome :=
  collecting (collect_tokens is_upper (mc m)) m
    (fun m => callback_eos h m KChunkExtName)
    (fun m b =>
       if b =? 61
       then callback_ignore_transition h m KChunkExtName StStripChunkExtensionValue
       else if (b =? 13) || (b =? 59)
       then callback_transition_slice h (replay m) KChunkExtName StChunkExtensionFinished
       else if is_upper b
       then callback_transition_slice h (replay m) KChunkExtName StUpperChunkExtensionName
       else fail m (ErChunkExtensionName b)).

(* upper_chunk_extension_name, /repo/src/http1/parser.rs:2255-2280 *)
Definition upper_chunk_extension_name (h : handler) (m : mach) : mach * outcome :=
  next_or_eos m (fun m b =>
    if is_upper b
    then callback_transition_data h m (EData KChunkExtName [b + 32]) StLowerChunkExtensionName
    else transition (replay m) StLowerChunkExtensionName).

(* strip_chunk_extension_value, /repo/src/http1/parser.rs:2283-2305 *)
Definition strip_chunk_extension_value (h : handler) (m : mach) : mach * outcome :=
  collecting (consume_linear_space (mc m)) m
    exit_eos
    (fun m b =>
       if is_visible_7bit b then transition (replay m) StChunkExtensionValue
       else fail m (ErChunkExtensionValue b)).

(* chunk_extension_value, /repo/src/http1/parser.rs:2308-2343 *)
Definition chunk_extension_value (h : handler) (m : mach) : mach * outcome :=
  collecting (collect_field (fun b => b =? 59) (mc m)) m
    (fun m => callback_eos h m KChunkExtValue)
    (fun m b =>
       if (b =? 13) || (b =? 59)
       then callback_transition_slice h (replay m) KChunkExtValue StChunkExtensionFinished
       else if b =? 34
       then callback_ignore_transition h m KChunkExtValue StChunkExtensionQuotedValue
       else fail m (ErChunkExtensionValue b)).

(* chunk_extension_quoted_value, /repo/src/http1/parser.rs:2346-2376 *)
Definition chunk_extension_quoted_value (h : handler) (m : mach) : mach * outcome :=
  collecting (collect_quoted_field (mc m)) m
    (fun m => callback_eos h m KChunkExtValue)
    (fun m b =>
       if b =? 34
       then callback_ignore_transition h m KChunkExtValue StChunkExtensionValue
       else if b =? 92
       then callback_ignore_transition h m KChunkExtValue StChunkExtensionEscapedValue
       else fail m (ErChunkExtensionValue b)).

(* chunk_extension_escaped_value, /repo/src/http1/parser.rs:2379-2398 *)
Definition chunk_extension_escaped_value (h : handler) (m : mach) : mach * outcome :=
  next_or_eos m (fun m b =>
    if is_escapable b
    then callback_transition_data h m (EData KChunkExtValue [b]) StChunkExtensionQuotedValue
    else fail m (ErChunkExtensionValue b)).

(* chunk_extension_finished, /repo/src/http1/parser.rs:2401-2417 *)
Definition chunk_extension_finished (h : handler) (m : mach) : mach * outcome :=
  next_or_eos m (fun m b =>
    callback_transition_data h m EChunkExtFinished
      (if b =? 13 then StChunkExtensionsFinished else StStripChunkExtensionName)).

(* chunk_extensions_finished, /repo/src/http1/parser.rs:2420-2432 *)
Definition chunk_extensions_finished (h : handler) (m : mach) : mach * outcome :=
  callback_transition_data h m EChunkExtsFinished StChunkLengthLf.

(* Common body of chunk_data (2435-2468) and multipart_data_by_length
   (2733-2766): collect what is available up to the remaining length. *)
Definition data_by_length (h : handler) (m : mach) (k : dkind) (s_done s_more : pstate)
  : mach * outcome :=
  let avail := bs_available (mc m) in
  if (avail =? 0)%nat then exit_eos m
  else if plength (mp m) <=? N.of_nat avail then
    let m := jump m (N.to_nat (plength (mp m))) in
    let m := with_p m (with_length (mp m) 0) in
    callback_transition_slice h m k s_done
  else
    let m := with_p m (with_length (mp m) (plength (mp m) - N.of_nat avail)) in
    let m := jump m avail in
    callback_transition_slice h m k s_more.

(* chunk_data, /repo/src/http1/parser.rs:2435-2468 *)
Definition chunk_data (h : handler) (m : mach) : mach * outcome :=
  data_by_length h m KChunkData StChunkDataCr StChunkData.

(* chunk_data_cr, /repo/src/http1/parser.rs:2471-2486 *)
Definition chunk_data_cr (h : handler) (m : mach) := expect_byte m 13 StChunkDataLf ErCrlfSequence.

(* chunk_data_lf, /repo/src/http1/parser.rs:2489-2504 *)
Definition chunk_data_lf (h : handler) (m : mach) := expect_byte m 10 StChunkLength1 ErCrlfSequence.

(* ------------------------------------------------------------------ *)
(* Multipart states                                                     *)
(* ------------------------------------------------------------------ *)

(* Common body of multipart_hyphen1 (2511-2538) and multipart_hyphen2
   (2541-2568); "prefix" is what has been matched before. *)
Definition multipart_hyphen (h : handler) (m : mach) (prefix : list byte) (s : pstate)
  : mach * outcome :=
  next_or_eos m (fun m b =>
    if b =? 45 then transition m s
    else if get_lower14 (mp m) =? 0
    then callback_transition_data h m (EData KMultipartData (prefix ++ [b])) StMultipartDataByByte
    else fail m (ErMultipartBoundary b)).

(* multipart_hyphen1, /repo/src/http1/parser.rs:2511-2538 *)
Definition multipart_hyphen1 (h : handler) (m : mach) :=
  multipart_hyphen h m [13; 10] StMultipartHyphen2.
(* multipart_hyphen2, /repo/src/http1/parser.rs:2541-2568 *)
Definition multipart_hyphen2 (h : handler) (m : mach) :=
  multipart_hyphen h m [13; 10; 45] StMultipartBoundary.

(* multipart_boundary, /repo/src/http1/parser.rs:2571-2658.  If set_boundary
   was called with a shorter boundary in the middle of a comparison,
   boundary.len() - upper14 is negative: a panic with overflow checks, without
   them the slice index panics. *)
Definition multipart_boundary (h : handler) (m : mach) : mach * outcome :=
  let avail := bs_available (mc m) in
  if (avail =? 0)%nat then exit_eos m else
  match boundary (mp m) with
  | None => faulted m FUnwrapPanic
  | Some bd =>
      let up := N.to_nat (get_upper14 (mp m)) in
      if (List.length bd <? up)%nat then faulted m FOverflow else
      let slice := if (List.length bd - up <=? avail)%nat
                   then skipn up bd
                   else firstn avail (skipn up bd) in
      if_starts_with m slice
        (let m := jump m (List.length slice) in
         if (up + List.length slice =? List.length bd)%nat
         then transition (with_p m (set_upper14 (mp m) 0)) StMultipartBoundaryCr
         else exit_eos (with_p m (set_upper14 (mp m)
                          (get_upper14 (mp m) + N.of_nat (List.length slice)))))
        (if get_lower14 (mp m) =? 0
         then callback_transition_data h (with_p m (set_upper14 (mp m) 0))
                (EData KMultipartData ([13; 10; 45; 45] ++ firstn up bd)) StMultipartDataByByte
         else next_unchecked m (fun m b => fail m (ErMultipartBoundary b)))
  end.

(* multipart_boundary_cr, /repo/src/http1/parser.rs:2661-2684 *)
Definition multipart_boundary_cr (h : handler) (m : mach) : mach * outcome :=
  next_or_eos m (fun m b =>
    if b =? 13 then callback_transition_data h m EMultipartBegin StInitialLf
    else if b =? 45 then transition m StMultipartEnd
    else fail m (ErMultipartBoundary b)).

(* multipart_boundary_lf, /repo/src/http1/parser.rs:2687-2702 (no state leads here) *)
Definition multipart_boundary_lf (h : handler) (m : mach) :=
  expect_byte m 10 StCheckHeaderName ErMultipartBoundary.

(* multipart_detect_data, /repo/src/http1/parser.rs:2705-2730; the call of
   content_length() is recorded in the history. *)
Definition multipart_detect_data (h : handler) (m : mach) : mach * outcome :=
  let ans := h_clen h (ml m) in
  let m := Mach (mp m) (mc m) (ml m ++ [EContentLength]) in
  match ans with
  | Some len =>
      transition (with_p m (set_lower14 (with_length (mp m) len) 1)) StMultipartDataByLength
  | None =>
      transition (with_p m (set_lower14 (mp m) 0)) StMultipartDataByByte
  end.

(* multipart_data_by_length, /repo/src/http1/parser.rs:2733-2766 *)
Definition multipart_data_by_length (h : handler) (m : mach) : mach * outcome :=
  data_by_length h m KMultipartData StMultipartDataByLengthCr StMultipartDataByLength.

(* multipart_data_by_length_cr, /repo/src/http1/parser.rs:2769-2786 *)
Definition multipart_data_by_length_cr (h : handler) (m : mach) :=
  expect_byte m 13 StMultipartDataByLengthLf ErMultipartBoundary.

(* multipart_data_by_length_lf, /repo/src/http1/parser.rs:2789-2806 *)
Definition multipart_data_by_length_lf (h : handler) (m : mach) :=
  expect_byte m 10 StMultipartHyphen1 ErMultipartBoundary.

(* multipart_data_by_byte, /repo/src/http1/parser.rs:2809-2829 *)
Definition multipart_data_by_byte (h : handler) (m : mach) : mach * outcome :=
  collecting (bs_collect (fun b => Some (b =? 13)) (mc m)) m
    (fun m => callback_eos h m KMultipartData)
    (fun m _ => callback_ignore_transition h m KMultipartData StMultipartDataByByteLf).

(* multipart_data_by_byte_lf, /repo/src/http1/parser.rs:2832-2855 *)
Definition multipart_data_by_byte_lf (h : handler) (m : mach) : mach * outcome :=
  next_or_eos m (fun m b =>
    if b =? 10 then transition m StMultipartHyphen1
    else callback_transition_data h m (EData KMultipartData [13; b]) StMultipartDataByByte).

(* multipart_end, /repo/src/http1/parser.rs:2858-2873 *)
Definition multipart_end (h : handler) (m : mach) := expect_byte m 45 StBodyFinished ErMultipartBoundary.

(* ------------------------------------------------------------------ *)
(* URL-encoded states                                                   *)
(* ------------------------------------------------------------------ *)

(* first_url_encoded_name, /repo/src/http1/parser.rs:2880-2896 *)
Definition first_url_encoded_name (h : handler) (m : mach) : mach * outcome :=
  if (bs_available (mc m) =? 0)%nat then exit_eos m
  else callback_transition_data h m EUrlBegin StUrlEncodedName.

(* url_encoded_name, /repo/src/http1/parser.rs:2899-2960 *)
Definition url_encoded_name (h : handler) (m : mach) : mach * outcome :=
  collecting (collect_visible_7bit
                (fun b => (b =? 37) || (b =? 43) || (b =? 61) || (b =? 38) || (b =? 59)) (mc m)) m
    (fun m => callback_eos h m KUrlName)
    (fun m b =>
       if b =? 37 then callback_ignore_transition h m KUrlName StUrlEncodedNameHex1
       else if b =? 43 then callback_ignore_transition h m KUrlName StUrlEncodedNamePlus
       else if b =? 61 then callback_ignore_transition h m KUrlName StUrlEncodedValue
       else if (b =? 38) || (b =? 59)
       then callback_ignore_transition h m KUrlName StFirstUrlEncodedName
       else fail m (ErUrlEncodedName b)).

(* Common body of url_encoded_name_hex1 (2963-2987) and
   url_encoded_value_hex1 (3087-3111): first hex digit into the upper field. *)
Definition url_hex1 (m : mach) (s : pstate) (err : byte -> perror) : mach * outcome :=
  next_or_eos m (fun m b =>
    match hex_digit b with
    | Some v => transition (with_p m (set_upper14 (mp m) (N.shiftl v 4))) s
    | None => fail m (err b)
    end).

(* Common body of url_encoded_name_hex2 (2990-3017) and
   url_encoded_value_hex2 (3114-3141): second hex digit into the lower field,
   deliver the byte ("as u8" is mod 256). *)
Definition url_hex2 (h : handler) (m : mach) (k : dkind) (s : pstate) (err : byte -> perror)
  : mach * outcome :=
  next_or_eos m (fun m b =>
    match hex_digit b with
    | Some v =>
        let m := with_p m (set_lower14 (mp m) v) in
        callback_transition_data h m
          (EData k [(N.lor (get_upper14 (mp m)) (get_lower14 (mp m))) mod 256]) s
    | None => fail m (err b)
    end).

(* url_encoded_name_hex1, /repo/src/http1/parser.rs:2963-2987 *)
Definition url_encoded_name_hex1 (h : handler) (m : mach) :=
  url_hex1 m StUrlEncodedNameHex2 ErUrlEncodedName.
(* url_encoded_name_hex2, /repo/src/http1/parser.rs:2990-3017 *)
Definition url_encoded_name_hex2 (h : handler) (m : mach) :=
  url_hex2 h m KUrlName StUrlEncodedName ErUrlEncodedName.
(* url_encoded_name_plus, /repo/src/http1/parser.rs:3020-3031 *)
Definition url_encoded_name_plus (h : handler) (m : mach) : mach * outcome :=
  callback_transition_data h m (EData KUrlName [32]) StUrlEncodedName.

(* url_encoded_value, /repo/src/http1/parser.rs:3034-3084 *)
Definition url_encoded_value (h : handler) (m : mach) : mach * outcome :=
  collecting (collect_visible_7bit
                (fun b => (b =? 37) || (b =? 43) || (b =? 38) || (b =? 59)) (mc m)) m
    (fun m => callback_eos h m KUrlValue)
    (fun m b =>
       if b =? 37 then callback_ignore_transition h m KUrlValue StUrlEncodedValueHex1
       else if (b =? 38) || (b =? 59)
       then callback_ignore_transition h m KUrlValue StFirstUrlEncodedName
       else if b =? 43 then callback_ignore_transition h m KUrlValue StUrlEncodedValuePlus
       else fail m (ErUrlEncodedValue b)).

(* url_encoded_value_hex1, /repo/src/http1/parser.rs:3087-3111 *)
Definition url_encoded_value_hex1 (h : handler) (m : mach) :=
  url_hex1 m StUrlEncodedValueHex2 ErUrlEncodedValue.
(* url_encoded_value_hex2, /repo/src/http1/parser.rs:3114-3141 *)
Definition url_encoded_value_hex2 (h : handler) (m : mach) :=
  url_hex2 h m KUrlValue StUrlEncodedValue ErUrlEncodedValue.
(* url_encoded_value_plus, /repo/src/http1/parser.rs:3144-3155 *)
Definition url_encoded_value_plus (h : handler) (m : mach) : mach * outcome :=
  callback_transition_data h m (EData KUrlValue [32]) StUrlEncodedValue.

(* ------------------------------------------------------------------ *)
(* Dead and finished states                                             *)
(* ------------------------------------------------------------------ *)

(* dead, /repo/src/http1/parser.rs:3162-3165 *)
Definition dead (h : handler) (m : mach) : mach * outcome := fail m ErDead.

(* body_finished, /repo/src/http1/parser.rs:3168-3177 *)
Definition body_finished (h : handler) (m : mach) : mach * outcome :=
  callback_transition_data h m EBodyFinished StFinished.

(* finished, /repo/src/http1/parser.rs:3180-3183 *)
Definition finished (h : handler) (m : mach) : mach * outcome := exit_finished m.

(* ------------------------------------------------------------------ *)
(* Main loop and API                                                    *)
(* ------------------------------------------------------------------ *)

(* The call (self.state_function)(self, handler, context),
   /repo/src/http1/parser.rs:218; see pstate for the naming of functions. *)
Definition run_fn (h : handler) (m : mach) : mach * outcome :=
  match state_fn (mp m) with
  | StDead => dead h m
  | StStripDetect => strip_detect h m
  | StDetect1 => detect1 h m
  | StDetect2 => detect2 h m
  | StDetect3 => detect3 h m
  | StDetect4 => detect4 h m
  | StDetect5 => detect5 h m
  | StRequestMethod => request_method h m
  | StRequestUrl1 => request_url1 h m
  | StRequestUrl2 => request_url2 h m
  | StRequestHttp1 => request_http1 h m
  | StRequestHttp2 => request_http2 h m
  | StRequestHttp3 => request_http3 h m
  | StRequestHttp4 => request_http4 h m
  | StRequestHttp5 => request_http5 h m
  | StRequestVersionMajor1 => request_version_major1 h m
  | StRequestVersionMajor2 => request_version_major2 h m
  | StRequestVersionMajor3 => request_version_major3 h m
  | StRequestVersionPeriod => request_version_period h m
  | StRequestVersionMinor1 => request_version_minor1 h m
  | StRequestVersionMinor2 => request_version_minor2 h m
  | StRequestVersionMinor3 => request_version_minor3 h m
  | StRequestVersionCr => request_version_cr h m
  | StResponseVersionMajor1 => response_version_major1 h m
  | StResponseVersionMajor2 => response_version_major2 h m
  | StResponseVersionMajor3 => response_version_major3 h m
  | StResponseVersionPeriod => response_version_period h m
  | StResponseVersionMinor1 => response_version_minor1 h m
  | StResponseVersionMinor2 => response_version_minor2 h m
  | StResponseVersionMinor3 => response_version_minor3 h m
  | StResponseVersionSpace => response_version_space h m
  | StResponseStatusCode1 => response_status_code1 h m
  | StResponseStatusCode2 => response_status_code2 h m
  | StResponseStatusCode3 => response_status_code3 h m
  | StResponseStatusCodeSpace => response_status_code_space h m
  | StResponseStatus1 => response_status1 h m
  | StResponseStatus2 => response_status2 h m
  | StInitialEnd => initial_end h m
  | StInitialLf => initial_lf h m
  | StCheckHeaderName => check_header_name h m
  | StFirstHeaderName => first_header_name h m
  | StUpperHeaderName => upper_header_name h m
  | StLowerHeaderName => lower_header_name h m
  | StStripHeaderValue => strip_header_value h m
  | StHeaderValue => header_value h m
  | StHeaderQuotedValue => header_quoted_value h m
  | StHeaderEscapedValue => header_escaped_value h m
  | StHeaderCr1 => header_cr1 h m
  | StHeaderLf1 => header_lf1 h m
  | StHeaderCr2 => header_cr2 h m
  | StHeaderLf2 => header_lf2 h m
  | StHeaderEnd => header_end h m
  | StChunkLength1 => chunk_length1 h m
  | StChunkLength2 => chunk_length2 h m
  | StChunkLength3 => chunk_length3 h m
  | StChunkLength4 => chunk_length4 h m
  | StChunkLength5 => chunk_length5 h m
  | StChunkLength6 => chunk_length6 h m
  | StChunkLength7 => chunk_length7 h m
  | StChunkLength8 => chunk_length8 h m
  | StChunkLengthCr => chunk_length_cr h m
  | StStripChunkExtensionName => strip_chunk_extension_name h m
  | StUpperChunkExtensionName => upper_chunk_extension_name h m
  | StLowerChunkExtensionName => lower_chunk_extension_name h m
  | StStripChunkExtensionValue => strip_chunk_extension_value h m
  | StChunkExtensionValue => chunk_extension_value h m
  | StChunkExtensionQuotedValue => chunk_extension_quoted_value h m
  | StChunkExtensionEscapedValue => chunk_extension_escaped_value h m
  | StChunkExtensionFinished => chunk_extension_finished h m
  | StChunkExtensionsFinished => chunk_extensions_finished h m
  | StChunkLengthLf => chunk_length_lf h m
  | StChunkData => chunk_data h m
  | StChunkDataCr => chunk_data_cr h m
  | StChunkDataLf => chunk_data_lf h m
  | StMultipartHyphen1 => multipart_hyphen1 h m
  | StMultipartHyphen2 => multipart_hyphen2 h m
  | StMultipartBoundary => multipart_boundary h m
  | StMultipartDetectData => multipart_detect_data h m
  | StMultipartDataByByte => multipart_data_by_byte h m
  | StMultipartDataByLength => multipart_data_by_length h m
  | StMultipartDataByLengthCr => multipart_data_by_length_cr h m
  | StMultipartDataByLengthLf => multipart_data_by_length_lf h m
  | StMultipartDataByByteLf => multipart_data_by_byte_lf h m
  | StMultipartBoundaryCr => multipart_boundary_cr h m
  | StMultipartBoundaryLf => multipart_boundary_lf h m
  | StMultipartEnd => multipart_end h m
  | StFirstUrlEncodedName => first_url_encoded_name h m
  | StUrlEncodedName => url_encoded_name h m
  | StUrlEncodedNameHex1 => url_encoded_name_hex1 h m
  | StUrlEncodedNameHex2 => url_encoded_name_hex2 h m
  | StUrlEncodedNamePlus => url_encoded_name_plus h m
  | StUrlEncodedValue => url_encoded_value h m
  | StUrlEncodedValueHex1 => url_encoded_value_hex1 h m
  | StUrlEncodedValueHex2 => url_encoded_value_hex2 h m
  | StUrlEncodedValuePlus => url_encoded_value_plus h m
  | StBodyFinished => body_finished h m
  | StFinished => finished h m
  end.

(* Result<Success, ParserError> of parse and resume; RFault stands for a panic
   or an out-of-bounds read, RFuel for "fuel exhausted" (shown not to occur). *)
Inductive result :=
| ROk (s : success)
| RErr (e : perror)
| RFault (f : fault)
| RFuel.

(* Parser::parse, /repo/src/http1/parser.rs:215-239, with explicit fuel. *)
Fixpoint parse (fuel : nat) (h : handler) (m : mach) : mach * result :=
  match fuel with
  | O => (m, RFuel)
  | S fuel' =>
      let '(m', o) := run_fn h m in
      match o with
      | Continue => parse fuel' h m'
      | Exit s =>
          let p := add_count (mp m') (cindex (mc m')) in
          let p := match s with SFinished _ => with_state_only p StFinished | _ => p end in
          (with_p m' p, ROk s)
      | Fail e =>
          let p := add_count (mp m') (cindex (mc m')) in
          (with_p m' (p_set_state p StDead), RErr e)
      | Faulted f => (m', RFault f)
      end
  end.

(* Fuel for the loop of one resume call; the loop of the source is unbounded,
   a theorem shows that this fuel is never exhausted. *)
Definition fuel_of (stream : list byte) : nat := 8 * List.length stream + 16.

(* Parser::resume, /repo/src/http1/parser.rs:285-320.  Takes the parser and
   the history of handler calls, returns both updated and the result. *)
Definition resume (h : handler) (p : parser) (log : list event) (stream : list byte)
  : parser * list event * result :=
  match parser_type p with
  | UrlEncoded =>
      let stream := if plength p <? N.of_nat (List.length stream)
                    then firstn (N.to_nat (plength p)) stream else stream in
      let fuel := fuel_of stream in
      let '(m, r) := parse fuel h (Mach p (bs_new stream) log) in
      match r with
      | ROk (SEos len) =>
          let self := mp m in
          if plength self <? N.of_nat len then (self, ml m, RFault FOverflow)
          else if plength self - N.of_nat len =? 0 then
            let '(m2, r2) := parse fuel h (with_p m (p_set_state self StBodyFinished)) in
            (mp m2, ml m2, r2)
          else (with_length self (plength self - N.of_nat len), ml m, ROk (SEos len))
      | ROk (SCallback len) =>
          let self := mp m in
          if plength self <? N.of_nat len then (self, ml m, RFault FOverflow)
          else (with_length self (plength self - N.of_nat len), ml m, ROk (SCallback len))
      | _ => (mp m, ml m, r)
      end
  | _ =>
      let '(m, r) := parse (fuel_of stream) h (Mach p (bs_new stream) log) in
      (mp m, ml m, r)
  end.

(* Parser::new, /repo/src/http1/parser.rs:157-167: state StripDetect but state
   function detect1. *)
Definition new : parser := Parser 0 None 0 0 Head StStripDetect StDetect1.

(* Parser::reset, /repo/src/http1/parser.rs:245-271 *)
Definition reset (p : parser) : parser :=
  let p := Parser 0 None (byte_count p) 0 (parser_type p) (state p) (state_fn p) in
  match parser_type p with
  | Chunked => p_set_state p StChunkLength1
  | Head => p_set_state p StStripDetect
  | Multipart => set_lower14 (p_set_state p StMultipartHyphen1) 1
  | UrlEncoded => p_set_state p StFirstUrlEncodedName
  end.

(* Parser::init_chunked, /repo/src/http1/parser.rs:170-174 *)
Definition init_chunked (p : parser) : parser := reset (with_type p Chunked).
(* Parser::init_head, /repo/src/http1/parser.rs:177-181 *)
Definition init_head (p : parser) : parser := reset (with_type p Head).
(* Parser::init_multipart, /repo/src/http1/parser.rs:184-188 *)
Definition init_multipart (p : parser) : parser := reset (with_type p Multipart).
(* Parser::init_url_encoded, /repo/src/http1/parser.rs:191-195 *)
Definition init_url_encoded (p : parser) : parser := reset (with_type p UrlEncoded).

(* Parser::set_boundary, /repo/src/http1/parser.rs:323-325 *)
Definition set_boundary (p : parser) (b : list byte) : parser :=
  Parser (bit_data p) (Some b) (byte_count p) (plength p) (parser_type p) (state p) (state_fn p).

(* Parser::set_length, /repo/src/http1/parser.rs:328-330 *)
Definition set_length (p : parser) (len : N) : parser := with_length p len.
