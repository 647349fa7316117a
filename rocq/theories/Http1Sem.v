(* Reference semantics of the HTTP/1 grammar accepted by the parser: a
   byte-at-a-time automaton without buffers, slices, marks or fast paths.
   It is used as a proof device for the simulation in Http1Sim.v; statements
   of properties do not mention it.

   The definitions cite the state functions of /repo/src/http1/parser.rs whose
   effect on a single byte they describe. *)

From Coq Require Import NArith List Bool Arith String.
From Verif Require Import Bytes ByteStream Http1Model Http1Spec.
Import ListNotations.
Local Open Scope N_scope.

(* ------------------------------------------------------------------ *)
(* Abstract states                                                      *)
(* ------------------------------------------------------------------ *)

(* State, lower and upper 14-bit numbers and length of
   /repo/src/http1/parser.rs:131-153. *)
Record astate := A { a_st : pstate; a_lo : N; a_up : N; a_len : N }.

(* In the head parser: states that still use the lower number. *)
Definition uses_lo (s : pstate) : bool :=
  match s with
  | StRequestVersionMajor2 | StRequestVersionMajor3 | StRequestVersionPeriod
  | StRequestVersionMinor1 | StRequestVersionMinor2 | StRequestVersionMinor3
  | StRequestVersionCr
  | StResponseVersionMajor2 | StResponseVersionMajor3 | StResponseVersionPeriod
  | StResponseVersionMinor1 | StResponseVersionMinor2 | StResponseVersionMinor3
  | StResponseVersionSpace
  | StResponseStatusCode2 | StResponseStatusCode3 | StResponseStatusCodeSpace => true
  | _ => false
  end.

(* In the head parser: states that still use the upper number. *)
Definition uses_up (s : pstate) : bool :=
  match s with
  | StRequestVersionMinor2 | StRequestVersionMinor3 | StRequestVersionCr
  | StResponseVersionMinor2 | StResponseVersionMinor3 | StResponseVersionSpace => true
  | _ => false
  end.

(* In the URL-encoded parser: states that still use the upper number. *)
Definition uses_hex (s : pstate) : bool :=
  match s with
  | StUrlEncodedNameHex2 | StUrlEncodedValueHex2 => true
  | _ => false
  end.

(* Forget the numbers that no longer matter. *)
Definition nrm (t : ptype) (a : astate) : astate :=
  match t with
  | Multipart => a
  | Chunked => A (a_st a) 0 0 (a_len a)
  | UrlEncoded => A (a_st a) 0 (if uses_hex (a_st a) then a_up a else 0) 0
  | Head => A (a_st a) (if uses_lo (a_st a) then a_lo a else 0)
              (if uses_up (a_st a) then a_up a else 0) 0
  end.

(* Abstract state of a parser. *)
Definition alpha (p : parser) : astate :=
  nrm (parser_type p) (A (state_fn p) (get_lower14 p) (get_upper14 p) (plength p)).

(* ------------------------------------------------------------------ *)
(* One byte                                                             *)
(* ------------------------------------------------------------------ *)

(* Effect of one byte: observations and next state, observations and an error,
   or a panic. *)
Inductive ares :=
| AGo (ev : list fevent) (a : astate)
| AError (ev : list fevent) (e : perror)
| APanic.

(* An error without observations before it. *)
Notation AErr e := (AError [] e).

(* Prefix a list of observations. *)
Definition with_ev (ev : list fevent) (r : ares) : ares :=
  match r with
  | AGo ev' a => AGo (ev ++ ev') a
  | AError ev' e => AError (ev ++ ev') e
  | APanic => APanic
  end.

(* Change of state only. *)
Definition st (a : astate) (s : pstate) : astate := A s (a_lo a) (a_up a) (a_len a).
(* Change of state and lower number. *)
Definition st_lo (a : astate) (s : pstate) (v : N) : astate := A s v (a_up a) (a_len a).
(* Change of state and upper number. *)
Definition st_up (a : astate) (s : pstate) (v : N) : astate := A s (a_lo a) v (a_len a).
(* Change of state and length. *)
Definition st_len (a : astate) (s : pstate) (v : N) : astate := A s (a_lo a) (a_up a) v.

(* Truncation to 14 bits. *)
Definition m14 (v : N) : N := v mod 2 ^ 14.

(* Classification by a 255-entry table, /repo/src/byte.rs:243-259. *)
Definition by_table (tbl : byte -> option bool) (b : byte) (yes no : ares) : ares :=
  match tbl b with
  | None => APanic
  | Some true => yes
  | Some false => no
  end.

(* request_method, parser.rs:677-703 *)
Definition a_method (a : astate) (b : byte) : ares :=
  if is_upper b then AGo [FByte KMethod b] (st a StRequestMethod)
  else if b =? 32 then AGo [] (st a StRequestUrl1)
  else AErr (ErMethod b).

(* detect1, parser.rs:450-558 *)
Definition a_detect1 (a : astate) (b : byte) : ares :=
  if b =? 72 then AGo [] (st a StDetect2)
  else if is_upper b then AGo [FByte KMethod b] (st a StRequestMethod)
  else AErr (ErMethod b).

(* detect2 .. detect5, parser.rs:561-670, as intended: if the bytes read so far
   turn out not to start "HTTP/", they belong to a method. *)
Definition a_detect (a : astate) (pre : list byte) (expect : byte) (s : pstate) (b : byte) : ares :=
  if b =? expect then AGo [] (st a s)
  else with_ev (map (FByte KMethod) pre) (a_method a b).

(* states expecting one particular byte *)
Definition a_expect (a : astate) (expect : byte) (s : pstate) (err : byte -> perror) (b : byte)
  : ares :=
  if b =? expect then AGo [] (st a s) else AErr (err b).

(* request_url1/2, parser.rs:706-745 *)
Definition a_url1 (a : astate) (b : byte) : ares :=
  if is_visible_7bit b then AGo [FByte KUrl b] (st a StRequestUrl2) else AErr (ErUrl b).
Definition a_url2 (a : astate) (b : byte) : ares :=
  if is_visible_7bit b then AGo [FByte KUrl b] (st a StRequestUrl2)
  else if b =? 32 then AGo [] (st a StRequestHttp1) else AErr (ErUrl b).

(* version states, parser.rs:865-1057 and 1064-1260 *)
Definition a_major1 (a : astate) (s : pstate) (b : byte) : ares :=
  if is_digit b then AGo [] (A s (b - 48) 0 (a_len a)) else AErr (ErVersion b).
Definition a_major23 (a : astate) (s_minor1 s : pstate) (b : byte) : ares :=
  if b =? 46 then AGo [] (st a s_minor1)
  else if is_digit b then AGo [] (st_lo a s (m14 (a_lo a * 10 + (b - 48))))
  else AErr (ErVersion b).
Definition a_minor1 (a : astate) (s : pstate) (b : byte) : ares :=
  if is_digit b then AGo [] (st_up a s (b - 48)) else AErr (ErVersion b).
Definition a_version_end (a : astate) (fin : byte) (s : pstate) (b : byte) : ares :=
  if b =? fin then AGo [FEv (EVersion (a_lo a) (a_up a))] (st a s) else AErr (ErVersion b).
Definition a_minor23 (a : astate) (fin : byte) (s_fin s : pstate) (b : byte) : ares :=
  if b =? fin then a_version_end a fin s_fin b
  else if is_digit b then AGo [] (st_up a s (m14 (a_up a * 10 + (b - 48))))
  else AErr (ErVersion b).

(* response_status_code1..3, parser.rs:1263-1355 *)
Definition a_code (a : astate) (base mult : N) (s : pstate) (b : byte) : ares :=
  if is_digit b then AGo [] (st_lo a s (m14 (base + (b - 48) * mult))) else AErr (ErStatusCode b).

(* response_status2, parser.rs:1405-1433 *)
Definition a_status2 (a : astate) (b : byte) : ares :=
  if is_status_byte b then AGo [FByte KStatus b] (st a StResponseStatus2)
  else if b =? 13 then AGo [] (st a StInitialEnd)
  else AErr (ErStatus b).

(* lower_header_name / upper_header_name / first_header_name, parser.rs:1496-1665 *)
Definition a_lower_name (a : astate) (b : byte) : ares :=
  by_table is_token b
    (if is_upper b then AGo [FByte KHeaderName (b + 32)] (st a StLowerHeaderName)
     else AGo [FByte KHeaderName b] (st a StLowerHeaderName))
    (if b =? 58 then AGo [] (st a StStripHeaderValue) else AErr (ErHeaderName b)).
Definition a_first_name (a : astate) (b : byte) : ares :=
  if is_visible_7bit b then a_lower_name a b else AErr (ErHeaderName b).
(* check_header_name, parser.rs:1470-1493 *)
Definition a_check_name (a : astate) (b : byte) : ares :=
  if (b =? 32) || (b =? 9) then AGo [] (st a StHeaderValue) else a_first_name a b.

(* header_value .. header_escaped_value, parser.rs:1693-1776 *)
Definition a_value (a : astate) (b : byte) : ares :=
  by_table is_header_field b
    (AGo [FByte KHeaderValue b] (st a StHeaderValue))
    (if b =? 13 then AGo [] (st a StHeaderLf1)
     else if b =? 34 then AGo [FByte KHeaderValue b] (st a StHeaderQuotedValue)
     else AErr (ErHeaderValue b)).
Definition a_quoted (a : astate) (b : byte) : ares :=
  by_table is_quoted_header_field b
    (AGo [FByte KHeaderValue b] (st a StHeaderQuotedValue))
    (if b =? 34 then AGo [FByte KHeaderValue b] (st a StHeaderValue)
     else if b =? 92 then AGo [FByte KHeaderValue b] (st a StHeaderEscapedValue)
     else AErr (ErHeaderValue b)).
Definition a_escaped (a : astate) (b : byte) : ares :=
  if is_escapable b then AGo [FByte KHeaderValue b] (st a StHeaderQuotedValue)
  else AErr (ErHeaderValue b).

(* chunk_length_cr, parser.rs:2118-2158 *)
Definition a_chunk_cr (a : astate) (b : byte) : ares :=
  if b =? 13 then
    AGo [FEv (EChunkLength (a_len a))]
        (st a (if a_len a =? 0 then StHeaderLf1 else StChunkExtensionsFinished))
  else if b =? 59 then AGo [FEv (EChunkLength (a_len a))] (st a StStripChunkExtensionName)
  else AErr (ErChunkLength b).
(* chunk_length2..8, parser.rs:1929-2115 *)
Definition a_chunk_n (a : astate) (s : pstate) (b : byte) : ares :=
  if is_hex b then AGo [] (st_len a s (push_hex (a_len a) b)) else a_chunk_cr a b.

(* chunk_extension_finished, parser.rs:2401-2417 *)
Definition a_ext_finished (a : astate) (b : byte) : ares :=
  AGo [FEv EChunkExtFinished]
      (st a (if b =? 13 then StChunkExtensionsFinished else StStripChunkExtensionName)).

(* chunk extension names and values, parser.rs:2204-2398 *)
Definition a_ext_name (a : astate) (b : byte) : ares :=
  by_table is_token b
    (if is_upper b then AGo [FByte KChunkExtName (b + 32)] (st a StLowerChunkExtensionName)
     else AGo [FByte KChunkExtName b] (st a StLowerChunkExtensionName))
    (if b =? 61 then AGo [] (st a StStripChunkExtensionValue)
     else if (b =? 13) || (b =? 59) then a_ext_finished a b
     else AErr (ErChunkExtensionName b)).
Definition a_ext_value (a : astate) (b : byte) : ares :=
  by_table is_header_field b
    (if b =? 59 then a_ext_finished a b
     else AGo [FByte KChunkExtValue b] (st a StChunkExtensionValue))
    (if (b =? 13) || (b =? 59) then a_ext_finished a b
     else if b =? 34 then AGo [] (st a StChunkExtensionQuotedValue)
     else AErr (ErChunkExtensionValue b)).
Definition a_ext_quoted (a : astate) (b : byte) : ares :=
  by_table is_quoted_header_field b
    (AGo [FByte KChunkExtValue b] (st a StChunkExtensionQuotedValue))
    (if b =? 34 then AGo [] (st a StChunkExtensionValue)
     else if b =? 92 then AGo [] (st a StChunkExtensionEscapedValue)
     else AErr (ErChunkExtensionValue b)).
Definition a_ext_escaped (a : astate) (b : byte) : ares :=
  if is_escapable b then AGo [FByte KChunkExtValue b] (st a StChunkExtensionQuotedValue)
  else AErr (ErChunkExtensionValue b).

(* chunk_data / multipart_data_by_length, parser.rs:2435-2468, 2733-2766 *)
Definition a_by_length (a : astate) (k : dkind) (s_more s_done : pstate)
           (done : astate -> byte -> ares) (b : byte) : ares :=
  if a_len a =? 0 then done (st_len a s_done 0) b
  else AGo [FByte k b] (st_len a (if a_len a =? 1 then s_done else s_more) (a_len a - 1)).

(* multipart_data_by_byte, parser.rs:2809-2829 *)
Definition a_by_byte (a : astate) (b : byte) : ares :=
  if b =? 13 then AGo [] (st a StMultipartDataByByteLf)
  else AGo [FByte KMultipartData b] (st a StMultipartDataByByte).

(* multipart_hyphen1/2, parser.rs:2511-2568 *)
Definition a_hyphen (a : astate) (prefix : list byte) (s : pstate) (b : byte) : ares :=
  if b =? 45 then AGo [] (st a s)
  else if a_lo a =? 0
  then AGo (map (FByte KMultipartData) (prefix ++ [b])) (st a StMultipartDataByByte)
  else AErr (ErMultipartBoundary b).

(* multipart_boundary_cr, parser.rs:2661-2684 *)
Definition a_boundary_cr (a : astate) (b : byte) : ares :=
  if b =? 13 then AGo [FEv EMultipartBegin] (st a StInitialLf)
  else if b =? 45 then AGo [] (st a StMultipartEnd)
  else AErr (ErMultipartBoundary b).

(* multipart_boundary, parser.rs:2571-2658: one byte of the comparison with the
   boundary; on a mismatch inside data the bytes compared so far are data. *)
Definition a_boundary (bd : option (list byte)) (a : astate) (b : byte) : ares :=
  match bd with
  | None => APanic
  | Some bd =>
      let up := N.to_nat (a_up a) in
      match nth_error bd up with
      | None =>
          if (List.length bd =? up)%nat
          then a_boundary_cr (st_up a StMultipartBoundaryCr 0) b
          else APanic
      | Some x =>
          if b =? x then
            if (S up =? List.length bd)%nat
            then AGo [] (st_up a StMultipartBoundaryCr 0)
            else AGo [] (st_up a StMultipartBoundary (a_up a + 1))
          else if a_lo a =? 0 then
            with_ev (map (FByte KMultipartData) ([13; 10; 45; 45] ++ firstn up bd))
                    (a_by_byte (st_up a StMultipartDataByByte 0) b)
          else AErr (ErMultipartBoundary b)
      end
  end.

(* URL-encoded names and values, parser.rs:2899-3141 *)
Definition a_url_name (a : astate) (b : byte) : ares :=
  if b =? 37 then AGo [] (st a StUrlEncodedNameHex1)
  else if b =? 43 then AGo [] (st a StUrlEncodedNamePlus)
  else if b =? 61 then AGo [] (st a StUrlEncodedValue)
  else if (b =? 38) || (b =? 59) then AGo [] (st a StFirstUrlEncodedName)
  else if is_visible_7bit b then AGo [FByte KUrlName b] (st a StUrlEncodedName)
  else AErr (ErUrlEncodedName b).
Definition a_url_value (a : astate) (b : byte) : ares :=
  if b =? 37 then AGo [] (st a StUrlEncodedValueHex1)
  else if b =? 43 then AGo [] (st a StUrlEncodedValuePlus)
  else if (b =? 38) || (b =? 59) then AGo [] (st a StFirstUrlEncodedName)
  else if is_visible_7bit b then AGo [FByte KUrlValue b] (st a StUrlEncodedValue)
  else AErr (ErUrlEncodedValue b).
Definition a_hex1 (a : astate) (s : pstate) (err : byte -> perror) (b : byte) : ares :=
  match hex_digit b with
  | Some v => AGo [] (st_up a s (16 * v))
  | None => AErr (err b)
  end.
Definition a_hex2 (a : astate) (k : dkind) (s : pstate) (err : byte -> perror) (b : byte) : ares :=
  match hex_digit b with
  | Some v => AGo [FByte k ((N.lor (a_up a) v) mod 256)] (st_lo a s v)
  | None => AErr (err b)
  end.

(* states that skip spaces and tabs, parser.rs:1668-1690, 2179-2201, 2283-2305 *)
Definition a_strip (a : astate) (next : astate -> byte -> ares) (err : byte -> perror) (b : byte)
  : ares :=
  if (b =? 32) || (b =? 9) then AGo [] a
  else if is_visible_7bit b then next a b
  else AErr (err b).

(* Effect of one byte in state a; bd is the multipart boundary.  States that
   take no byte (see aeps) and finished states are not given a meaning here. *)
Definition abyte_raw (bd : option (list byte)) (a : astate) (b : byte) : ares :=
  match a_st a with
  | StStripDetect =>
      if (b =? 13) || (b =? 10) || (b =? 9) || (b =? 32) then AGo [] a else a_detect1 a b
  | StDetect1 => a_detect1 a b
  | StDetect2 => a_detect a (bs "H") 84 StDetect3 b
  | StDetect3 => a_detect a (bs "HT") 84 StDetect4 b
  | StDetect4 => a_detect a (bs "HTT") 80 StDetect5 b
  | StDetect5 => a_detect a (bs "HTTP") 47 StResponseVersionMajor1 b
  | StRequestMethod => a_method a b
  | StRequestUrl1 => a_url1 a b
  | StRequestUrl2 => a_url2 a b
  | StRequestHttp1 => a_expect a 72 StRequestHttp2 ErVersion b
  | StRequestHttp2 => a_expect a 84 StRequestHttp3 ErVersion b
  | StRequestHttp3 => a_expect a 84 StRequestHttp4 ErVersion b
  | StRequestHttp4 => a_expect a 80 StRequestHttp5 ErVersion b
  | StRequestHttp5 => a_expect a 47 StRequestVersionMajor1 ErVersion b
  | StRequestVersionMajor1 => a_major1 a StRequestVersionMajor2 b
  | StRequestVersionMajor2 => a_major23 a StRequestVersionMinor1 StRequestVersionMajor3 b
  | StRequestVersionMajor3 => a_major23 a StRequestVersionMinor1 StRequestVersionPeriod b
  | StRequestVersionPeriod => a_expect a 46 StRequestVersionMinor1 ErVersion b
  | StRequestVersionMinor1 => a_minor1 a StRequestVersionMinor2 b
  | StRequestVersionMinor2 => a_minor23 a 13 StInitialEnd StRequestVersionMinor3 b
  | StRequestVersionMinor3 => a_minor23 a 13 StInitialEnd StRequestVersionCr b
  | StRequestVersionCr => a_version_end a 13 StInitialEnd b
  | StResponseVersionMajor1 => a_major1 a StResponseVersionMajor2 b
  | StResponseVersionMajor2 => a_major23 a StResponseVersionMinor1 StResponseVersionMajor3 b
  | StResponseVersionMajor3 => a_major23 a StResponseVersionMinor1 StResponseVersionPeriod b
  | StResponseVersionPeriod => a_expect a 46 StResponseVersionMinor1 ErVersion b
  | StResponseVersionMinor1 => a_minor1 a StResponseVersionMinor2 b
  | StResponseVersionMinor2 => a_minor23 a 32 StResponseStatusCode1 StResponseVersionMinor3 b
  | StResponseVersionMinor3 => a_minor23 a 32 StResponseStatusCode1 StResponseVersionSpace b
  | StResponseVersionSpace => a_version_end a 32 StResponseStatusCode1 b
  | StResponseStatusCode1 => a_code a 0 100 StResponseStatusCode2 b
  | StResponseStatusCode2 => a_code a (a_lo a) 10 StResponseStatusCode3 b
  | StResponseStatusCode3 => a_code a (a_lo a) 1 StResponseStatusCodeSpace b
  | StResponseStatusCodeSpace =>
      if b =? 32 then AGo [FEv (EStatusCode (a_lo a))] (st a StResponseStatus1)
      else AErr (ErStatusCode b)
  | StResponseStatus1 => if is_status_byte b then a_status2 a b else AErr (ErStatus b)
  | StResponseStatus2 => a_status2 a b
  | StInitialLf => a_expect a 10 StHeaderCr2 ErCrlfSequence b
  | StCheckHeaderName => a_check_name a b
  | StFirstHeaderName => a_first_name a b
  | StUpperHeaderName => a_lower_name a b
  | StLowerHeaderName => a_lower_name a b
  | StStripHeaderValue => a_strip a a_value ErHeaderValue b
  | StHeaderValue => a_value a b
  | StHeaderQuotedValue => a_quoted a b
  | StHeaderEscapedValue => a_escaped a b
  | StHeaderCr1 => a_expect a 13 StHeaderLf1 ErCrlfSequence b
  | StHeaderLf1 => a_expect a 10 StHeaderCr2 ErCrlfSequence b
  | StHeaderCr2 => if b =? 13 then AGo [] (st a StHeaderLf2) else a_check_name a b
  | StHeaderLf2 => a_expect a 10 StHeaderEnd ErCrlfSequence b
  | StChunkLength1 =>
      if b =? 48 then AGo [FEv EChunkBegin] (st a StChunkLengthCr)
      else if is_hex b then AGo [FEv EChunkBegin] (st_len a StChunkLength2 (hex_to_byte b))
      else AErr (ErChunkLength b)
  | StChunkLength2 => a_chunk_n a StChunkLength3 b
  | StChunkLength3 => a_chunk_n a StChunkLength4 b
  | StChunkLength4 => a_chunk_n a StChunkLength5 b
  | StChunkLength5 => a_chunk_n a StChunkLength6 b
  | StChunkLength6 => a_chunk_n a StChunkLength7 b
  | StChunkLength7 => a_chunk_n a StChunkLength8 b
  | StChunkLength8 => a_chunk_n a StChunkLengthCr b
  | StChunkLengthCr => a_chunk_cr a b
  | StStripChunkExtensionName => a_strip a a_ext_name ErChunkExtensionName b
  | StUpperChunkExtensionName => a_ext_name a b
  | StLowerChunkExtensionName => a_ext_name a b
  | StStripChunkExtensionValue => a_strip a a_ext_value ErChunkExtensionValue b
  | StChunkExtensionValue => a_ext_value a b
  | StChunkExtensionQuotedValue => a_ext_quoted a b
  | StChunkExtensionEscapedValue => a_ext_escaped a b
  | StChunkExtensionFinished => a_ext_finished a b
  | StChunkLengthLf => a_expect a 10 StChunkData ErCrlfSequence b
  | StChunkData =>
      a_by_length a KChunkData StChunkData StChunkDataCr
        (fun a => a_expect a 13 StChunkDataLf ErCrlfSequence) b
  | StChunkDataCr => a_expect a 13 StChunkDataLf ErCrlfSequence b
  | StChunkDataLf => a_expect a 10 StChunkLength1 ErCrlfSequence b
  | StMultipartHyphen1 => a_hyphen a [13; 10] StMultipartHyphen2 b
  | StMultipartHyphen2 => a_hyphen a [13; 10; 45] StMultipartBoundary b
  | StMultipartBoundary => a_boundary bd a b
  | StMultipartDataByByte => a_by_byte a b
  | StMultipartDataByLength =>
      a_by_length a KMultipartData StMultipartDataByLength StMultipartDataByLengthCr
        (fun a => a_expect a 13 StMultipartDataByLengthLf ErMultipartBoundary) b
  | StMultipartDataByLengthCr => a_expect a 13 StMultipartDataByLengthLf ErMultipartBoundary b
  | StMultipartDataByLengthLf => a_expect a 10 StMultipartHyphen1 ErMultipartBoundary b
  | StMultipartDataByByteLf =>
      if b =? 10 then AGo [] (st a StMultipartHyphen1)
      else AGo (map (FByte KMultipartData) [13; b]) (st a StMultipartDataByByte)
  | StMultipartBoundaryCr => a_boundary_cr a b
  | StMultipartBoundaryLf => a_expect a 10 StCheckHeaderName ErMultipartBoundary b
  | StMultipartEnd => a_expect a 45 StBodyFinished ErMultipartBoundary b
  | StFirstUrlEncodedName => with_ev [FEv EUrlBegin] (a_url_name a b)
  | StUrlEncodedName => a_url_name a b
  | StUrlEncodedNameHex1 => a_hex1 a StUrlEncodedNameHex2 ErUrlEncodedName b
  | StUrlEncodedNameHex2 => a_hex2 a KUrlName StUrlEncodedName ErUrlEncodedName b
  | StUrlEncodedValue => a_url_value a b
  | StUrlEncodedValueHex1 => a_hex1 a StUrlEncodedValueHex2 ErUrlEncodedValue b
  | StUrlEncodedValueHex2 => a_hex2 a KUrlValue StUrlEncodedValue ErUrlEncodedValue b
  | _ => AErr ErDead
  end.

(* abyte_raw with irrelevant numbers forgotten *)
Definition abyte (t : ptype) (bd : option (list byte)) (a : astate) (b : byte) : ares :=
  match abyte_raw bd a b with
  | AGo ev a' => AGo ev (nrm t a')
  | r => r
  end.

(* ------------------------------------------------------------------ *)
(* Steps without input                                                  *)
(* ------------------------------------------------------------------ *)

(* States left without reading a byte: initial_end (1440), header_end (1884),
   chunk_extensions_finished (2420), multipart_detect_data (2705),
   url_encoded_name_plus (3020), url_encoded_value_plus (3144), body_finished
   (3168).  clen is the answer to content_length() as a function of the
   observations so far. *)
Definition aeps (t : ptype) (clen : list fevent -> option N) (l : list fevent) (a : astate)
  : option (list fevent * astate) :=
  match a_st a with
  | StInitialEnd => Some ([FEv EInitialFinished], nrm t (st a StInitialLf))
  | StHeaderEnd =>
      Some ([FEv EHeadersFinished],
            nrm t (st a (match t with
                         | Chunked => StBodyFinished
                         | Multipart => StMultipartDetectData
                         | _ => StFinished
                         end)))
  | StChunkExtensionsFinished => Some ([FEv EChunkExtsFinished], nrm t (st a StChunkLengthLf))
  | StMultipartDetectData =>
      Some ([FEv EContentLength],
            nrm t (match clen l with
                   | Some n => A StMultipartDataByLength 1 (a_up a) n
                   | None => A StMultipartDataByByte 0 (a_up a) (a_len a)
                   end))
  | StUrlEncodedNamePlus => Some ([FByte KUrlName 32], nrm t (st a StUrlEncodedName))
  | StUrlEncodedValuePlus => Some ([FByte KUrlValue 32], nrm t (st a StUrlEncodedValue))
  | StBodyFinished => Some ([FEv EBodyFinished], nrm t (st a StFinished))
  | _ => None
  end.

(* Follow steps without input (at most two in a row exist). *)
Fixpoint aclose (n : nat) (t : ptype) (clen : list fevent -> option N)
         (l : list fevent) (a : astate) : list fevent * astate :=
  match n with
  | O => (l, a)
  | S n' =>
      match aeps t clen l a with
      | Some (ev, a') => aclose n' t clen (l ++ ev) a'
      | None => (l, a)
      end
  end.

(* ------------------------------------------------------------------ *)
(* Whole inputs                                                         *)
(* ------------------------------------------------------------------ *)

(* Result of processing an input: all observations, final state and the input
   left (not empty only when finished); or an error; or a panic. *)
Inductive aout :=
| ADone (l : list fevent) (a : astate) (rest : list byte)
| AFail (l : list fevent) (e : perror) (rest : list byte)
| AFlt (l : list fevent).

(* Meaning of an input s in state a after the observations l. *)
Fixpoint aexec (t : ptype) (bd : option (list byte)) (clen : list fevent -> option N)
         (a : astate) (l : list fevent) (s : list byte) : aout :=
  let '(l1, a1) := aclose 3 t clen l a in
  match a_st a1 with
  | StFinished => ADone l1 a1 s
  | StDead => AFail l1 ErDead s
  | _ =>
      match s with
      | [] => ADone l1 a1 []
      | b :: s' =>
          match abyte t bd a1 b with
          | AGo ev a2 => aexec t bd clen a2 (l1 ++ ev) s'
          | AError ev e => AFail (l1 ++ ev) e s'
          | APanic => AFlt l1
          end
      end
  end.
