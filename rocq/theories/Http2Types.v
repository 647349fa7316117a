(* Model of the small HTTP/2 types: /repo/src/http2/frame_type.rs, error_code.rs,
   setting.rs, flags.rs and frame_format.rs.

   u8, u16 and u32 values are numbers N; a theorem that needs the range says so.
   Debug and Display are in FormatModel.v.  Not modelled: the derived Clone, Copy
   and PartialEq.  Setting::new and FrameFormat::new take
   an unused `&mut self`; it is left out.  (Hence a program outside the crate
   needs a value of the type to create one.) *)

From Coq Require Import NArith List Bool.
Local Open Scope N_scope.

(* /repo/src/http2/frame_type.rs:20 *)
Definition FR_CONTINUATION : N := 9.
(* /repo/src/http2/frame_type.rs:23 *)
Definition FR_DATA : N := 0.
(* /repo/src/http2/frame_type.rs:26 *)
Definition FR_GO_AWAY : N := 7.
(* /repo/src/http2/frame_type.rs:29 *)
Definition FR_HEADERS : N := 1.
(* /repo/src/http2/frame_type.rs:32 *)
Definition FR_PING : N := 6.
(* /repo/src/http2/frame_type.rs:35 *)
Definition FR_PRIORITY : N := 2.
(* /repo/src/http2/frame_type.rs:38 *)
Definition FR_PUSH_PROMISE : N := 5.
(* /repo/src/http2/frame_type.rs:41 *)
Definition FR_RST_STREAM : N := 3.
(* /repo/src/http2/frame_type.rs:44 *)
Definition FR_SETTINGS : N := 4.
(* /repo/src/http2/frame_type.rs:47 *)
Definition FR_WINDOW_UPDATE : N := 8.
(* /repo/src/http2/frame_type.rs:50 *)
Definition FR_UNSUPPORTED : N := 255.

(* enum FrameType, /repo/src/http2/frame_type.rs:55-88 *)
Inductive frame_type :=
| FtContinuation
| FtData
| FtGoAway
| FtHeaders
| FtPing
| FtPriority
| FtPushPromise
| FtRstStream
| FtSettings
| FtWindowUpdate
| FtUnsupported.

(* FrameType::from_u8, /repo/src/http2/frame_type.rs:92-106 *)
Definition frame_type_from_u8 (byte : N) : frame_type :=
  if byte =? FR_DATA then FtData else
  if byte =? FR_HEADERS then FtHeaders else
  if byte =? FR_PRIORITY then FtPriority else
  if byte =? FR_RST_STREAM then FtRstStream else
  if byte =? FR_SETTINGS then FtSettings else
  if byte =? FR_PUSH_PROMISE then FtPushPromise else
  if byte =? FR_PING then FtPing else
  if byte =? FR_GO_AWAY then FtGoAway else
  if byte =? FR_WINDOW_UPDATE then FtWindowUpdate else
  if byte =? FR_CONTINUATION then FtContinuation else
  FtUnsupported.

(* FrameType::as_byte, /repo/src/http2/frame_type.rs:109-123 *)
Definition frame_type_as_byte (self : frame_type) : N :=
  match self with
  | FtContinuation => FR_CONTINUATION
  | FtData => FR_DATA
  | FtGoAway => FR_GO_AWAY
  | FtHeaders => FR_HEADERS
  | FtPing => FR_PING
  | FtPushPromise => FR_PUSH_PROMISE
  | FtPriority => FR_PRIORITY
  | FtRstStream => FR_RST_STREAM
  | FtSettings => FR_SETTINGS
  | FtWindowUpdate => FR_WINDOW_UPDATE
  | _ => FR_UNSUPPORTED
  end.

(* FrameType::is_continuation, /repo/src/http2/frame_type.rs:165-170 *)
Definition frame_type_is_continuation (self : frame_type) : bool :=
  match self with FtContinuation => true | _ => false end.
(* FrameType::is_data, /repo/src/http2/frame_type.rs:173-178 *)
Definition frame_type_is_data (self : frame_type) : bool :=
  match self with FtData => true | _ => false end.
(* FrameType::is_go_away, /repo/src/http2/frame_type.rs:181-186 *)
Definition frame_type_is_go_away (self : frame_type) : bool :=
  match self with FtGoAway => true | _ => false end.
(* FrameType::is_headers, /repo/src/http2/frame_type.rs:189-194 *)
Definition frame_type_is_headers (self : frame_type) : bool :=
  match self with FtHeaders => true | _ => false end.
(* FrameType::is_push_ping, /repo/src/http2/frame_type.rs:197-202 *)
Definition frame_type_is_push_ping (self : frame_type) : bool :=
  match self with FtPing => true | _ => false end.
(* FrameType::is_priority, /repo/src/http2/frame_type.rs:205-210 *)
Definition frame_type_is_priority (self : frame_type) : bool :=
  match self with FtPriority => true | _ => false end.
(* FrameType::is_push_promise, /repo/src/http2/frame_type.rs:213-218 *)
Definition frame_type_is_push_promise (self : frame_type) : bool :=
  match self with FtPushPromise => true | _ => false end.
(* FrameType::is_rst_stream, /repo/src/http2/frame_type.rs:221-226 *)
Definition frame_type_is_rst_stream (self : frame_type) : bool :=
  match self with FtRstStream => true | _ => false end.
(* FrameType::is_settings, /repo/src/http2/frame_type.rs:229-234 *)
Definition frame_type_is_settings (self : frame_type) : bool :=
  match self with FtSettings => true | _ => false end.
(* FrameType::is_unsupported, /repo/src/http2/frame_type.rs:237-242 *)
Definition frame_type_is_unsupported (self : frame_type) : bool :=
  match self with FtUnsupported => true | _ => false end.
(* FrameType::is_window_update, /repo/src/http2/frame_type.rs:245-250 *)
Definition frame_type_is_window_update (self : frame_type) : bool :=
  match self with FtWindowUpdate => true | _ => false end.

(* /repo/src/http2/error_code.rs:20 *)
Definition E_CANCEL : N := 8.
(* /repo/src/http2/error_code.rs:23 *)
Definition E_COMPRESSION : N := 9.
(* /repo/src/http2/error_code.rs:26 *)
Definition E_CONNECT : N := 10.
(* /repo/src/http2/error_code.rs:29 *)
Definition E_ENHANCE_YOUR_CALM : N := 11.
(* /repo/src/http2/error_code.rs:32 *)
Definition E_FLOW_CONTROL : N := 3.
(* /repo/src/http2/error_code.rs:35 *)
Definition E_FRAME_SIZE : N := 6.
(* /repo/src/http2/error_code.rs:38 *)
Definition E_HTTP_1_1_REQUIRED : N := 13.
(* /repo/src/http2/error_code.rs:41 *)
Definition E_INADEQUATE_SECURITY : N := 12.
(* /repo/src/http2/error_code.rs:44 *)
Definition E_NO_ERROR : N := 0.
(* /repo/src/http2/error_code.rs:47 *)
Definition E_INTERNAL : N := 2.
(* /repo/src/http2/error_code.rs:50 *)
Definition E_PROTOCOL : N := 1.
(* /repo/src/http2/error_code.rs:53 *)
Definition E_REFUSED_STREAM : N := 7.
(* /repo/src/http2/error_code.rs:56 *)
Definition E_SETTINGS_TIMEOUT : N := 4.
(* /repo/src/http2/error_code.rs:59 *)
Definition E_STREAM_CLOSED : N := 5.
(* /repo/src/http2/error_code.rs:62 *)
Definition E_UNSUPPORTED : N := 255.

(* enum ErrorCode, /repo/src/http2/error_code.rs:67-112 *)
Inductive error_code :=
| EcCancel
| EcCompression
| EcConnect
| EcEnhanceYourCalm
| EcFlowControl
| EcFrameSize
| EcHttp11Required
| EcInadequateSecurity
| EcNoError
| EcInternal
| EcProtocol
| EcRefusedStream
| EcSettingsTimeout
| EcStreamClosed
| EcUnsupported.

(* ErrorCode::from_u8, /repo/src/http2/error_code.rs:116-134 *)
Definition error_code_from_u8 (byte : N) : error_code :=
  if byte =? E_CANCEL then EcCancel else
  if byte =? E_COMPRESSION then EcCompression else
  if byte =? E_CONNECT then EcConnect else
  if byte =? E_ENHANCE_YOUR_CALM then EcEnhanceYourCalm else
  if byte =? E_FLOW_CONTROL then EcFlowControl else
  if byte =? E_FRAME_SIZE then EcFrameSize else
  if byte =? E_HTTP_1_1_REQUIRED then EcHttp11Required else
  if byte =? E_INADEQUATE_SECURITY then EcInadequateSecurity else
  if byte =? E_INTERNAL then EcInternal else
  if byte =? E_NO_ERROR then EcNoError else
  if byte =? E_PROTOCOL then EcProtocol else
  if byte =? E_REFUSED_STREAM then EcRefusedStream else
  if byte =? E_SETTINGS_TIMEOUT then EcSettingsTimeout else
  if byte =? E_STREAM_CLOSED then EcStreamClosed else
  EcUnsupported.

(* ErrorCode::as_byte, /repo/src/http2/error_code.rs:137-155 *)
Definition error_code_as_byte (self : error_code) : N :=
  match self with
  | EcCancel => E_CANCEL
  | EcCompression => E_COMPRESSION
  | EcConnect => E_CONNECT
  | EcEnhanceYourCalm => E_ENHANCE_YOUR_CALM
  | EcFlowControl => E_FLOW_CONTROL
  | EcFrameSize => E_FRAME_SIZE
  | EcHttp11Required => E_HTTP_1_1_REQUIRED
  | EcInadequateSecurity => E_INADEQUATE_SECURITY
  | EcInternal => E_INTERNAL
  | EcNoError => E_NO_ERROR
  | EcProtocol => E_PROTOCOL
  | EcRefusedStream => E_REFUSED_STREAM
  | EcSettingsTimeout => E_SETTINGS_TIMEOUT
  | EcStreamClosed => E_STREAM_CLOSED
  | EcUnsupported => E_UNSUPPORTED
  end.

(* ErrorCode::is_cancel, /repo/src/http2/error_code.rs:254-256 *)
Definition error_code_is_cancel (self : error_code) : bool :=
  match self with EcCancel => true | _ => false end.
(* ErrorCode::is_compression, /repo/src/http2/error_code.rs:259-261 *)
Definition error_code_is_compression (self : error_code) : bool :=
  match self with EcCompression => true | _ => false end.
(* ErrorCode::is_connect, /repo/src/http2/error_code.rs:264-266 *)
Definition error_code_is_connect (self : error_code) : bool :=
  match self with EcConnect => true | _ => false end.
(* ErrorCode::is_enhance_your_calm, /repo/src/http2/error_code.rs:269-271 *)
Definition error_code_is_enhance_your_calm (self : error_code) : bool :=
  match self with EcEnhanceYourCalm => true | _ => false end.
(* ErrorCode::is_flow_control, /repo/src/http2/error_code.rs:274-276 *)
Definition error_code_is_flow_control (self : error_code) : bool :=
  match self with EcFlowControl => true | _ => false end.
(* ErrorCode::is_frame_size, /repo/src/http2/error_code.rs:279-281 *)
Definition error_code_is_frame_size (self : error_code) : bool :=
  match self with EcFrameSize => true | _ => false end.
(* ErrorCode::is_http_1_1_required, /repo/src/http2/error_code.rs:284-286 *)
Definition error_code_is_http_1_1_required (self : error_code) : bool :=
  match self with EcHttp11Required => true | _ => false end.
(* ErrorCode::is_inadequate_security, /repo/src/http2/error_code.rs:289-291 *)
Definition error_code_is_inadequate_security (self : error_code) : bool :=
  match self with EcInadequateSecurity => true | _ => false end.
(* ErrorCode::is_internal, /repo/src/http2/error_code.rs:294-296 *)
Definition error_code_is_internal (self : error_code) : bool :=
  match self with EcInternal => true | _ => false end.
(* ErrorCode::is_no_error, /repo/src/http2/error_code.rs:299-301 *)
Definition error_code_is_no_error (self : error_code) : bool :=
  match self with EcNoError => true | _ => false end.
(* ErrorCode::is_protocol, /repo/src/http2/error_code.rs:304-306 *)
Definition error_code_is_protocol (self : error_code) : bool :=
  match self with EcProtocol => true | _ => false end.
(* ErrorCode::is_refused_stream, /repo/src/http2/error_code.rs:309-311 *)
Definition error_code_is_refused_stream (self : error_code) : bool :=
  match self with EcRefusedStream => true | _ => false end.
(* ErrorCode::is_settings_timeout, /repo/src/http2/error_code.rs:314-316 *)
Definition error_code_is_settings_timeout (self : error_code) : bool :=
  match self with EcSettingsTimeout => true | _ => false end.
(* ErrorCode::is_stream_closed, /repo/src/http2/error_code.rs:319-321 *)
Definition error_code_is_stream_closed (self : error_code) : bool :=
  match self with EcStreamClosed => true | _ => false end.

(* /repo/src/http2/setting.rs:20 *)
Definition S_ENABLE_PUSH : N := 2.
(* /repo/src/http2/setting.rs:23 *)
Definition S_HEADER_TABLE_SIZE : N := 1.
(* /repo/src/http2/setting.rs:26 *)
Definition S_INITIAL_WINDOW_SIZE : N := 4.
(* /repo/src/http2/setting.rs:29 *)
Definition S_MAX_CONCURRENT_STREAMS : N := 3.
(* /repo/src/http2/setting.rs:32 *)
Definition S_MAX_FRAME_SIZE : N := 5.
(* /repo/src/http2/setting.rs:35 *)
Definition S_MAX_HEADER_LIST_SIZE : N := 6.

(* enum Setting, /repo/src/http2/setting.rs:38-59 *)
Inductive setting :=
| SeEnablePush (value : N)
| SeHeaderTableSize (value : N)
| SeInitialWindowSize (value : N)
| SeMaxConcurrentStreams (value : N)
| SeMaxFrameSize (value : N)
| SeMaxHeaderListSize (value : N)
| SeUnsupported (value : N).

(* Setting::new, /repo/src/http2/setting.rs:63-73 *)
Definition setting_new (id value : N) : setting :=
  if id =? S_HEADER_TABLE_SIZE then SeHeaderTableSize value else
  if id =? S_ENABLE_PUSH then SeEnablePush value else
  if id =? S_MAX_CONCURRENT_STREAMS then SeMaxConcurrentStreams value else
  if id =? S_INITIAL_WINDOW_SIZE then SeInitialWindowSize value else
  if id =? S_MAX_FRAME_SIZE then SeMaxFrameSize value else
  if id =? S_MAX_HEADER_LIST_SIZE then SeMaxHeaderListSize value else
  SeUnsupported value.

(* Setting::is_enable_push, /repo/src/http2/setting.rs:131-136 *)
Definition setting_is_enable_push (self : setting) : bool :=
  match self with SeEnablePush _ => true | _ => false end.
(* Setting::is_header_table_size, /repo/src/http2/setting.rs:139-144 *)
Definition setting_is_header_table_size (self : setting) : bool :=
  match self with SeHeaderTableSize _ => true | _ => false end.
(* Setting::is_initial_window_size, /repo/src/http2/setting.rs:147-152 *)
Definition setting_is_initial_window_size (self : setting) : bool :=
  match self with SeInitialWindowSize _ => true | _ => false end.
(* Setting::is_max_concurrent_streams, /repo/src/http2/setting.rs:155-160 *)
Definition setting_is_max_concurrent_streams (self : setting) : bool :=
  match self with SeMaxConcurrentStreams _ => true | _ => false end.
(* Setting::is_max_frame_size, /repo/src/http2/setting.rs:163-168 *)
Definition setting_is_max_frame_size (self : setting) : bool :=
  match self with SeMaxFrameSize _ => true | _ => false end.
(* Setting::is_max_header_list_size, /repo/src/http2/setting.rs:171-176 *)
Definition setting_is_max_header_list_size (self : setting) : bool :=
  match self with SeMaxHeaderListSize _ => true | _ => false end.
(* Setting::is_unsupported, /repo/src/http2/setting.rs:179-184 *)
Definition setting_is_unsupported (self : setting) : bool :=
  match self with SeUnsupported _ => true | _ => false end.
(* Setting::value, /repo/src/http2/setting.rs:187-199 *)
Definition setting_value (self : setting) : N :=
  match self with
  | SeEnablePush x | SeHeaderTableSize x | SeInitialWindowSize x | SeMaxConcurrentStreams x | SeMaxFrameSize x | SeMaxHeaderListSize x | SeUnsupported x => x
  end.

(* /repo/src/http2/flags.rs:20 *)
Definition FL_ACK : N := 1.
(* /repo/src/http2/flags.rs:23 *)
Definition FL_END_HEADERS : N := 4.
(* /repo/src/http2/flags.rs:26 *)
Definition FL_END_STREAM : N := 1.
(* /repo/src/http2/flags.rs:29 *)
Definition FL_PADDED : N := 8.
(* /repo/src/http2/flags.rs:32 *)
Definition FL_PRIORITY : N := 32.

(* struct Flags, /repo/src/http2/flags.rs:35-38 *)
Record flags := Flags { fl_flags : N }.
(* Flags::from_u8, /repo/src/http2/flags.rs:43-47 *)
Definition flags_from_u8 (byte : N) : flags := Flags byte.
(* Flags::as_byte, /repo/src/http2/flags.rs:50-52 *)
Definition flags_as_byte (self : flags) : N := fl_flags self.
(* Flags::is_ack, /repo/src/http2/flags.rs:68-70 *)
Definition flags_is_ack (self : flags) : bool := N.land (fl_flags self) FL_ACK =? FL_ACK.
(* Flags::is_empty, /repo/src/http2/flags.rs:73-75 *)
Definition flags_is_empty (self : flags) : bool := fl_flags self =? 0.
(* Flags::is_end_headers, /repo/src/http2/flags.rs:78-80 *)
Definition flags_is_end_headers (self : flags) : bool := N.land (fl_flags self) FL_END_HEADERS =? FL_END_HEADERS.
(* Flags::is_end_stream, /repo/src/http2/flags.rs:83-85 *)
Definition flags_is_end_stream (self : flags) : bool := N.land (fl_flags self) FL_END_STREAM =? FL_END_STREAM.
(* Flags::is_padded, /repo/src/http2/flags.rs:88-90 *)
Definition flags_is_padded (self : flags) : bool := N.land (fl_flags self) FL_PADDED =? FL_PADDED.
(* Flags::is_priority, /repo/src/http2/flags.rs:93-95 *)
Definition flags_is_priority (self : flags) : bool := N.land (fl_flags self) FL_PRIORITY =? FL_PRIORITY.

(* struct FrameFormat, /repo/src/http2/frame_format.rs:23-28 *)
Record frame_format := FrameFormat {
  ff_flags : N;
  ff_payload_length_frame_type : N;
  ff_stream_id : N
}.
(* FrameFormat::new, /repo/src/http2/frame_format.rs:32-39; << on u32 drops the
   bits that do not fit. *)
Definition frame_format_new (payload_length frame_type flags stream_id : N) : frame_format :=
  FrameFormat flags (N.lor (N.shiftl payload_length 8 mod 2 ^ 32) frame_type) stream_id.
(* FrameFormat::flags, /repo/src/http2/frame_format.rs:42-44 *)
Definition frame_format_flags (self : frame_format) : flags := flags_from_u8 (ff_flags self).
(* FrameFormat::frame_type, /repo/src/http2/frame_format.rs:59-61 *)
Definition frame_format_frame_type (self : frame_format) : frame_type :=
  frame_type_from_u8 (N.land (ff_payload_length_frame_type self) 255).
(* FrameFormat::payload_length, /repo/src/http2/frame_format.rs:64-66 *)
Definition frame_format_payload_length (self : frame_format) : N :=
  N.shiftr (ff_payload_length_frame_type self) 8.
(* FrameFormat::stream_id, /repo/src/http2/frame_format.rs:69-71 *)
Definition frame_format_stream_id (self : frame_format) : N := ff_stream_id self.
