(* The small HTTP/2 types: C43.  The registries rfc_types, rfc_errors and
   rfc_settings list the names of RFC 7540 in numerical order. *)

From Coq Require Import NArith List Bool.
From Verif Require Import Http2Types Http2TypesSpec Http2TypesFacts.
Import ListNotations.
Local Open Scope N_scope.

(* C43, FrameType *)
Theorem C43_frame_type :
  (forall b, frame_type_from_u8 b = match entry 0 rfc_types b with Some t => t | None => FtUnsupported end) /\
  (forall b t, entry 0 rfc_types b = Some t -> frame_type_as_byte t = b) /\
  (forall t, t <> FtUnsupported -> frame_type_from_u8 (frame_type_as_byte t) = t) /\
  (forall b, 10 <= b -> frame_type_from_u8 b = FtUnsupported) /\
  frame_type_as_byte FtUnsupported = 255 /\
  (forall b, b <= 10 -> only type_tests b (frame_type_from_u8 b)).
Proof. exact frame_type_consistent. Qed.
Print Assumptions C43_frame_type.

Example C43_frame_type_case :
  entry 0 rfc_types 8 = Some FtWindowUpdate /\ entry 0 rfc_types 10 = None /\
  map (fun t => t (frame_type_from_u8 1)) type_tests =
    [false; true; false; false; false; false; false; false; false; false; false].
Proof. repeat split. Qed.

(* C43, ErrorCode *)
Theorem C43_error_code :
  (forall b, error_code_from_u8 b = match entry 0 rfc_errors b with Some t => t | None => EcUnsupported end) /\
  (forall b t, entry 0 rfc_errors b = Some t -> error_code_as_byte t = b) /\
  (forall t, t <> EcUnsupported -> error_code_from_u8 (error_code_as_byte t) = t) /\
  (forall b, 14 <= b -> error_code_from_u8 b = EcUnsupported) /\
  error_code_as_byte EcUnsupported = 255 /\
  (forall b, b <= 14 -> only error_tests b (error_code_from_u8 b)).
Proof. exact error_code_consistent. Qed.
Print Assumptions C43_error_code.

Example C43_error_code_case :
  entry 0 rfc_errors 13 = Some EcHttp11Required /\ error_code_as_byte EcCancel = 8.
Proof. split; reflexivity. Qed.

(* C43, Setting *)
Theorem C43_setting :
  (forall id v, setting_new id v =
     match entry 1 rfc_settings id with Some s => s v | None => SeUnsupported v end) /\
  (forall id v, setting_value (setting_new id v) = v) /\
  (forall id v, id = 0 \/ 7 <= id -> setting_new id v = SeUnsupported v) /\
  (forall id v, id <= 6 -> only setting_tests id (setting_new (id + 1) v)).
Proof. exact setting_consistent. Qed.
Print Assumptions C43_setting.

Example C43_setting_case :
  setting_new 4 65535 = SeInitialWindowSize 65535 /\ setting_new 0 5 = SeUnsupported 5.
Proof. split; reflexivity. Qed.

(* C43, Flags *)
Theorem C43_flags : forall b,
  flags_as_byte (flags_from_u8 b) = b /\
  flags_is_ack (flags_from_u8 b) = N.testbit b 0 /\
  flags_is_end_stream (flags_from_u8 b) = N.testbit b 0 /\
  flags_is_end_headers (flags_from_u8 b) = N.testbit b 2 /\
  flags_is_padded (flags_from_u8 b) = N.testbit b 3 /\
  flags_is_priority (flags_from_u8 b) = N.testbit b 5 /\
  flags_is_empty (flags_from_u8 b) = (b =? 0).
Proof. exact flags_consistent. Qed.
Print Assumptions C43_flags.

Example C43_flags_case :
  flags_is_priority (flags_from_u8 41) = true /\ flags_is_end_headers (flags_from_u8 41) = false.
Proof. split; reflexivity. Qed.

(* C43, FrameFormat: only the low 24 bits of the payload length are kept. *)
Theorem C43_frame_format : forall len t f sid, t < 256 ->
  let x := frame_format_new len t f sid in
  frame_format_payload_length x = len mod 2 ^ 24 /\
  (len < 2 ^ 24 -> frame_format_payload_length x = len) /\
  frame_format_frame_type x = frame_type_from_u8 t /\
  flags_as_byte (frame_format_flags x) = f /\ frame_format_stream_id x = sid.
Proof. exact frame_format_consistent. Qed.
Print Assumptions C43_frame_format.

Example C43_frame_format_case :
  let x := frame_format_new 16777215 9 4 2147483647 in
  frame_format_payload_length x = 16777215 /\ frame_format_frame_type x = FtContinuation.
Proof. split; reflexivity. Qed.
