(* Model of the Debug and Display implementations: the texts they write.

   `{}` writes a u8, u32 or usize in decimal without leading zeros (dec) and a
   bool as true or false (flag); that is Rust's standard library, modelled by
   the standard library of Coq.  Formatting flags ({:>5} etc.) only pad such
   texts and are not modelled; nor are errors of the receiving formatter. *)

From Coq Require Import NArith List Bool String DecimalString.
From Coq Require DecimalN.
From Verif Require Http1Model UtilModel.
From Verif Require Import Bytes Http2Types.
Local Open Scope N_scope.
Local Open Scope string_scope.

(* `{}` for unsigned integers *)
Definition dec (n : N) : string := NilZero.string_of_uint (N.to_uint n).
(* `{}` for bool *)
Definition flag (b : bool) : string := if b then "true" else "false".

(* enum ParserError of HTTP/1 with the two values no code of the crate produces,
   which Http1Model.perror does not have, /repo/src/http1/parser_error.rs:21-72 *)
Inductive http1_error :=
| Produced (e : Http1Model.perror)
| ChunkLengthOverflow
| MultipartError (b : byte).

(* ParserError::format, /repo/src/http1/parser_error.rs:76-195; Debug and Display
   are the same, :198-208 *)
Definition http1_error_text (self : http1_error) : string :=
  match self with
  | Produced (Http1Model.ErChunkExtensionName b) => "<ParserError::ChunkExtensionName: " ++ dec b ++ ">"
  | Produced (Http1Model.ErChunkExtensionValue b) => "<ParserError::ChunkExtensionValue: " ++ dec b ++ ">"
  | Produced (Http1Model.ErChunkLength b) => "<ParserError::ChunkLength: " ++ dec b ++ ">"
  | ChunkLengthOverflow => "<ParserError::ChunkLengthOverflow>"
  | Produced (Http1Model.ErCrlfSequence b) => "<ParserError::CrlfSequence: " ++ dec b ++ ">"
  | Produced Http1Model.ErDead => "<ParserError::Dead>"
  | Produced (Http1Model.ErHeaderName b) => "<ParserError::HeaderName: " ++ dec b ++ ">"
  | Produced (Http1Model.ErHeaderValue b) => "<ParserError::HeaderValue: " ++ dec b ++ ">"
  | Produced (Http1Model.ErMethod b) => "<ParserError::Method: " ++ dec b ++ ">"
  | MultipartError b => "<ParserError::Multipart: " ++ dec b ++ ">"
  | Produced (Http1Model.ErMultipartBoundary b) => "<ParserError::MultipartBoundary: " ++ dec b ++ ">"
  | Produced (Http1Model.ErStatus b) => "<ParserError::Status: " ++ dec b ++ ">"
  | Produced (Http1Model.ErStatusCode b) => "<ParserError::StatusCode: " ++ dec b ++ ">"
  | Produced (Http1Model.ErUrl b) => "<ParserError::Url: " ++ dec b ++ ">"
  | Produced (Http1Model.ErUrlEncodedName b) => "<ParserError::UrlEncodedName: " ++ dec b ++ ">"
  | Produced (Http1Model.ErUrlEncodedValue b) => "<ParserError::UrlEncodedValue: " ++ dec b ++ ">"
  | Produced (Http1Model.ErVersion b) => "<ParserError::Version: " ++ dec b ++ ">"
  end.

(* ParserError::format of HTTP/2, /repo/src/http2/parser.rs:156-162, Debug and
   Display, :165-175; Dead is its only value *)
Definition http2_error_text : string := "<ParserError::Dead>".

(* Debug for Success, /repo/src/fsm.rs:235-249 *)
Definition success_debug (self : Http1Model.success) : string :=
  match self with
  | Http1Model.SCallback n => "Success::Callback(" ++ dec (N.of_nat n) ++ ")"
  | Http1Model.SEos n => "Success::Eos(" ++ dec (N.of_nat n) ++ ")"
  | Http1Model.SFinished n => "Success::Finished(" ++ dec (N.of_nat n) ++ ")"
  end.
(* Display for Success, /repo/src/fsm.rs:251-265 *)
Definition success_display (self : Http1Model.success) : string :=
  match self with
  | Http1Model.SCallback n => dec (N.of_nat n)
  | Http1Model.SEos n => dec (N.of_nat n)
  | Http1Model.SFinished n => dec (N.of_nat n)
  end.

(* FrameType::format, /repo/src/http2/frame_type.rs:126-162; Debug and Display *)
Definition frame_type_text (self : frame_type) : string :=
  match self with
  | FtContinuation => "<FrameType::Continuation>"
  | FtData => "<FrameType::Data>"
  | FtGoAway => "<FrameType::GoAway>"
  | FtHeaders => "<FrameType::Headers>"
  | FtPing => "<FrameType::Ping>"
  | FtPriority => "<FrameType::Priority>"
  | FtPushPromise => "<FrameType::PushPromise>"
  | FtRstStream => "<FrameType::RstStream>"
  | FtSettings => "<FrameType::Settings>"
  | FtWindowUpdate => "<FrameType::WindowUpdate>"
  | FtUnsupported => "<FrameType::Unsupported>"
  end.

(* ErrorCode::format, /repo/src/http2/error_code.rs:158-251; Debug and Display,
   :324-334 *)
Definition error_code_text (self : error_code) : string :=
  match self with
  | EcCancel => "<ErrorCode::Cancel>"
  | EcCompression => "<ErrorCode::Compression>"
  | EcConnect => "<ErrorCode::Connect>"
  | EcEnhanceYourCalm => "<ErrorCode::EnhanceYourCalm>"
  | EcFlowControl => "<ErrorCode::FlowControl>"
  | EcFrameSize => "<ErrorCode::FrameSize>"
  | EcHttp11Required => "<ErrorCode::Http11Required>"
  | EcInadequateSecurity => "<ErrorCode::InadequateSecurity>"
  | EcInternal => "<ErrorCode::Internal>"
  | EcNoError => "<ErrorCode::NoError>"
  | EcProtocol => "<ErrorCode::Protocol>"
  | EcRefusedStream => "<ErrorCode::RefusedStream>"
  | EcSettingsTimeout => "<ErrorCode::SettingsTimeout>"
  | EcStreamClosed => "<ErrorCode::StreamClosed>"
  | EcUnsupported => "<ErrorCode::Unsupported>"
  end.

(* Setting::format, /repo/src/http2/setting.rs:76-128; Debug and Display *)
Definition setting_text (self : setting) : string :=
  match self with
  | SeEnablePush x => "<Setting::EnablePush: " ++ dec x ++ ">"
  | SeHeaderTableSize x => "<Setting::HeaderTableSize: " ++ dec x ++ ">"
  | SeInitialWindowSize x => "<Setting::InitialWindowSize: " ++ dec x ++ ">"
  | SeMaxConcurrentStreams x => "<Setting::MaxConcurrentStreams: " ++ dec x ++ ">"
  | SeMaxFrameSize x => "<Setting::MaxFrameSize: " ++ dec x ++ ">"
  | SeMaxHeaderListSize x => "<Setting::MaxHeaderListSize: " ++ dec x ++ ">"
  | SeUnsupported x => "<Setting::Unsupported: " ++ dec x ++ ">"
  end.

(* Flags::format, /repo/src/http2/flags.rs:55-65; Debug and Display, :98-108 *)
Definition flags_text (self : flags) : string :=
  "<Flags: ack: " ++ flag (N.land (fl_flags self) FL_ACK =? FL_ACK)%N ++
  ", end_headers: " ++ flag (N.land (fl_flags self) FL_END_HEADERS =? FL_END_HEADERS)%N ++
  ", end_stream: " ++ flag (N.land (fl_flags self) FL_END_STREAM =? FL_END_STREAM)%N ++
  ", padded: " ++ flag (N.land (fl_flags self) FL_PADDED =? FL_PADDED)%N ++
  ", priority: " ++ flag (N.land (fl_flags self) FL_PRIORITY =? FL_PRIORITY)%N ++ ">".

(* FrameFormat::format, /repo/src/http2/frame_format.rs:47-56; Debug and Display,
   :74-84 *)
Definition frame_format_text (self : frame_format) : string :=
  "<FrameFormat: flags: " ++ flags_text (frame_format_flags self) ++
  ", frame_type: " ++ frame_type_text (frame_format_frame_type self) ++
  ", payload_length: " ++ dec (frame_format_payload_length self) ++
  ", stream_id: " ++ dec (ff_stream_id self) ++ ">".

(* DecodeError::format, /repo/src/util/decode.rs:32-49; Debug and Display, :52-62 *)
Definition decode_error_text (self : UtilModel.decode_error) : string :=
  match self with
  | UtilModel.DByte x => "<DecodeError::Byte: " ++ dec x ++ ">"
  | UtilModel.DHexSequence x => "<DecodeError::HexSequence: " ++ dec x ++ ">"
  end.

(* QueryError::format, /repo/src/util/query.rs:31-48; Debug and Display, :51-61 *)
Definition query_error_text (self : UtilModel.iter_error) : string :=
  match self with
  | UtilModel.EName x => "<QueryError::Name: " ++ dec x ++ ">"
  | UtilModel.EValue x => "<QueryError::Value: " ++ dec x ++ ">"
  end.

(* FieldError::format, /repo/src/util/field.rs:33-50; Debug and Display, :53-63 *)
Definition field_error_text (self : UtilModel.iter_error) : string :=
  match self with
  | UtilModel.EName x => "<FieldError::Name: Invalid field name on byte " ++ dec x ++ ">"
  | UtilModel.EValue x => "<FieldError::Value: Invalid field value on byte " ++ dec x ++ ">"
  end.
