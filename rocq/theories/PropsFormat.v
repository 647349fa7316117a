(* How values are written by Debug and Display: C65.  Vocabulary: writes, named,
   valued, applied, flags_written, frame_written and the tables of RFC 7540 in
   FormatSpec.v. *)

From Coq Require Import NArith List Bool String.
From Verif Require Http1Model UtilModel.
From Verif Require Import Bytes Http2Types FormatModel FormatSpec FormatFacts FormatTexts.
Import ListNotations.
Local Open Scope N_scope.
Local Open Scope string_scope.

(* HTTP/1 errors name their kind and show the byte. *)
Theorem C65_http1_errors : let err := fun e => http1_error_text (Produced e) in
  (forall b, valued "ParserError" "ChunkExtensionName" "" b (err (Http1Model.ErChunkExtensionName b))) /\
  (forall b, valued "ParserError" "ChunkExtensionValue" "" b (err (Http1Model.ErChunkExtensionValue b))) /\
  (forall b, valued "ParserError" "ChunkLength" "" b (err (Http1Model.ErChunkLength b))) /\
  named "ParserError" "ChunkLengthOverflow" (http1_error_text ChunkLengthOverflow) /\
  (forall b, valued "ParserError" "CrlfSequence" "" b (err (Http1Model.ErCrlfSequence b))) /\
  named "ParserError" "Dead" (err Http1Model.ErDead) /\
  (forall b, valued "ParserError" "HeaderName" "" b (err (Http1Model.ErHeaderName b))) /\
  (forall b, valued "ParserError" "HeaderValue" "" b (err (Http1Model.ErHeaderValue b))) /\
  (forall b, valued "ParserError" "Method" "" b (err (Http1Model.ErMethod b))) /\
  (forall b, valued "ParserError" "Multipart" "" b (http1_error_text (MultipartError b))) /\
  (forall b, valued "ParserError" "MultipartBoundary" "" b (err (Http1Model.ErMultipartBoundary b))) /\
  (forall b, valued "ParserError" "Status" "" b (err (Http1Model.ErStatus b))) /\
  (forall b, valued "ParserError" "StatusCode" "" b (err (Http1Model.ErStatusCode b))) /\
  (forall b, valued "ParserError" "Url" "" b (err (Http1Model.ErUrl b))) /\
  (forall b, valued "ParserError" "UrlEncodedName" "" b (err (Http1Model.ErUrlEncodedName b))) /\
  (forall b, valued "ParserError" "UrlEncodedValue" "" b (err (Http1Model.ErUrlEncodedValue b))) /\
  (forall b, valued "ParserError" "Version" "" b (err (Http1Model.ErVersion b))).
Proof. exact http1_errors_valued. Qed.
Print Assumptions C65_http1_errors.

Theorem C65_http2_error : named "ParserError" "Dead" http2_error_text.
Proof. exact http2_error_named. Qed.
Print Assumptions C65_http2_error.

(* So do the errors of decode and of the two iterators. *)
Theorem C65_util_errors :
  (forall b, valued "DecodeError" "Byte" "" b (decode_error_text (UtilModel.DByte b))) /\
  (forall b, valued "DecodeError" "HexSequence" "" b (decode_error_text (UtilModel.DHexSequence b))) /\
  (forall b, valued "QueryError" "Name" "" b (query_error_text (UtilModel.EName b))) /\
  (forall b, valued "QueryError" "Value" "" b (query_error_text (UtilModel.EValue b))) /\
  (forall b, valued "FieldError" "Name" "Invalid field name on byte " b (field_error_text (UtilModel.EName b))) /\
  (forall b, valued "FieldError" "Value" "Invalid field value on byte " b (field_error_text (UtilModel.EValue b))).
Proof. exact util_errors_valued. Qed.
Print Assumptions C65_util_errors.

(* Successes: Debug names the kind, Display is the number alone. *)
Theorem C65_success : forall n,
  applied "Success" "Callback" (N.of_nat n) (success_debug (Http1Model.SCallback n)) /\
  applied "Success" "Eos" (N.of_nat n) (success_debug (Http1Model.SEos n)) /\
  applied "Success" "Finished" (N.of_nat n) (success_debug (Http1Model.SFinished n)) /\
  writes (success_display (Http1Model.SCallback n)) (N.of_nat n) /\
  writes (success_display (Http1Model.SEos n)) (N.of_nat n) /\
  writes (success_display (Http1Model.SFinished n)) (N.of_nat n).
Proof. exact success_applied. Qed.
Print Assumptions C65_success.

(* HTTP/2: what comes from the wire is written by its name in RFC 7540. *)
Theorem C65_frame_type : forall b,
  named "FrameType" (row frame_type_names b) (frame_type_text (frame_type_from_u8 b)).
Proof. exact frame_type_named. Qed.
Print Assumptions C65_frame_type.

Theorem C65_error_code : forall b,
  named "ErrorCode" (row error_code_names b) (error_code_text (error_code_from_u8 b)).
Proof. exact error_code_named. Qed.
Print Assumptions C65_error_code.

Theorem C65_setting : forall id v,
  valued "Setting" (row setting_names id) "" v (setting_text (setting_new id v)).
Proof. exact setting_valued. Qed.
Print Assumptions C65_setting.

Theorem C65_flags : forall b, flags_written b (flags_text (flags_from_u8 b)).
Proof. exact flags_of. Qed.
Print Assumptions C65_flags.

Theorem C65_frame_format : forall len t f sid, len < 2 ^ 24 -> t < 256 ->
  frame_written len t f sid (frame_format_text (frame_format_new len t f sid)).
Proof. exact frame_format_of. Qed.
Print Assumptions C65_frame_format.

Example C65_text_case :
  http1_error_text (Produced (Http1Model.ErHeaderName 0)) = "<ParserError::HeaderName: 0>" /\
  http1_error_text (Produced (Http1Model.ErUrl 127)) = "<ParserError::Url: 127>" /\
  success_debug (Http1Model.SEos 1024) = "Success::Eos(1024)" /\
  field_error_text (UtilModel.EValue 10) = "<FieldError::Value: Invalid field value on byte 10>" /\
  frame_format_text (frame_format_new 16384 1 37 3) =
    "<FrameFormat: flags: <Flags: ack: true, end_headers: true, end_stream: true, padded: false, priority: true>, frame_type: <FrameType::Headers>, payload_length: 16384, stream_id: 3>" /\
  setting_text (setting_new 4 65535) = "<Setting::InitialWindowSize: 65535>".
Proof. vm_compute. repeat split. Qed.

(* Different values have different texts. *)
Theorem C65_distinct :
  (forall a b, http1_error_text a = http1_error_text b -> a = b) /\
  (forall a b, success_debug a = success_debug b -> a = b) /\
  (forall a b, frame_type_text a = frame_type_text b -> a = b) /\
  (forall a b, error_code_text a = error_code_text b -> a = b) /\
  (forall a b, setting_text a = setting_text b -> a = b) /\
  (forall a b, decode_error_text a = decode_error_text b -> a = b) /\
  (forall a b, query_error_text a = query_error_text b -> a = b) /\
  (forall a b, field_error_text a = field_error_text b -> a = b).
Proof. exact texts_distinct. Qed.
Print Assumptions C65_distinct.

Example C65_distinct_case :
  setting_text (SeMaxFrameSize 16384) <> setting_text (SeMaxFrameSize 16385) /\
  success_debug (Http1Model.SEos 3) <> success_debug (Http1Model.SFinished 3).
Proof. split; discriminate. Qed.

(* Two frame headers have the same text exactly if all their accessors agree. *)
Theorem C65_frame_format_distinct : forall a b, frame_format_text a = frame_format_text b <->
  (let f := frame_format_flags a in let g := frame_format_flags b in
   flags_is_ack f = flags_is_ack g /\ flags_is_end_headers f = flags_is_end_headers g /\
   flags_is_end_stream f = flags_is_end_stream g /\ flags_is_padded f = flags_is_padded g /\
   flags_is_priority f = flags_is_priority g) /\
  frame_format_frame_type a = frame_format_frame_type b /\
  frame_format_payload_length a = frame_format_payload_length b /\
  frame_format_stream_id a = frame_format_stream_id b.
Proof. exact frame_format_text_inj. Qed.
Print Assumptions C65_frame_format_distinct.

Example C65_frame_format_distinct_case :
  frame_format_text (frame_format_new 5 0 1 7) <> frame_format_text (frame_format_new 5 0 1 8) /\
  frame_format_text (frame_format_new 5 0 1 7) <> frame_format_text (frame_format_new 5 0 9 7) /\
  frame_format_text (frame_format_new 5 0 1 7) = frame_format_text (frame_format_new 5 0 3 7).
Proof. vm_compute. repeat split; discriminate. Qed.

(* It does not hold of Display for Success, of Flags, of FrameFormat and of
   settings under different identifiers. *)
Theorem C65_distinct_refuted :
  (exists a b, a <> b /\ success_display a = success_display b) /\
  (exists a b, flags_from_u8 a <> flags_from_u8 b /\ flags_text (flags_from_u8 a) = flags_text (flags_from_u8 b)) /\
  (exists a b, a <> b /\ frame_format_text a = frame_format_text b) /\
  (exists i j v, i <> j /\ setting_text (setting_new i v) = setting_text (setting_new j v)).
Proof. exact texts_not_distinct. Qed.
Print Assumptions C65_distinct_refuted.
