(* The crate's own unit tests of the HTTP/2 parser, /repo/src/http2/test, carried
   out in the model (a build with overflow checks, as tests are).  Not part of any
   proof: they compare the model with what the authors of the crate expect. *)

From Coq Require Import NArith List Bool Arith String.
From Verif Require Import Bytes ByteStream Http2Model Http2Types Http2TestKit.
Import ListNotations.
Local Open Scope N_scope.

(* /repo/src/http2/test/continuation.rs:27-71 *)
Example continuation_continuation :
  (let '(p, log, _) := resume true debug new []
     (pack_u32 3337 ++
      pack_u8 4 ++
      pack_u32 2147483647 ++
      bs "Hello, world!") in
   (flags_is_end_headers (flags_from_u8 (frame_flags log)),
    frame_type_from_u8 (frame_type_of log),
    text KFragment log,
    finished KFragment log,
    state p)) =
  (true, FtContinuation, bs "Hello, world!", true, StFrameLength1).
Proof. vm_compute. reflexivity. Qed.

(* /repo/src/http2/test/data.rs:27-79 *)
Example data_with_padding :
  (let '(p, log, _) := resume true debug new []
     (pack_u32 6144 ++
      pack_u8 8 ++
      pack_u32 2147483647 ++
      pack_u8 10 ++
      bs "Hello, world!" ++
      bs "XXXXXXXXXX") in
   (flags_is_padded (flags_from_u8 (frame_flags log)),
    frame_type_from_u8 (frame_type_of log),
    text KData log,
    finished KData log,
    state p)) =
  (true, FtData, bs "Hello, world!", true, StFrameLength1).
Proof. vm_compute. reflexivity. Qed.

(* /repo/src/http2/test/data.rs:82-126 *)
Example data_without_padding :
  (let '(p, log, _) := resume true debug new []
     (pack_u32 3328 ++
      pack_u8 0 ++
      pack_u32 2147483647 ++
      bs "Hello, world!") in
   (flags_is_empty (flags_from_u8 (frame_flags log)),
    frame_type_from_u8 (frame_type_of log),
    text KData log,
    finished KData log,
    state p)) =
  (true, FtData, bs "Hello, world!", true, StFrameLength1).
Proof. vm_compute. reflexivity. Qed.

(* /repo/src/http2/test/frame_format.rs:26-68 *)
Example frame_format_all_flags :
  (let '(p, log, _) := resume true debug new []
     (pack_u32 65280 ++
      pack_u8 255 ++
      pack_u32 2147483647) in
   (frame_payload_length log,
    frame_type_from_u8 (frame_type_of log),
    flags_is_end_headers (flags_from_u8 (frame_flags log)),
    flags_is_end_stream (flags_from_u8 (frame_flags log)),
    flags_is_padded (flags_from_u8 (frame_flags log)),
    flags_is_priority (flags_from_u8 (frame_flags log)),
    frame_stream_id log)) =
  (255, FtData, true, true, true, true, 2147483647).
Proof. vm_compute. reflexivity. Qed.

(* /repo/src/http2/test/frame_format.rs:71-110 *)
Example frame_format_no_flags :
  (let '(p, log, _) := resume true debug new []
     (pack_u32 65280 ++
      pack_u8 0 ++
      pack_u32 2147483647) in
   (frame_payload_length log,
    frame_type_from_u8 (frame_type_of log),
    flags_is_empty (flags_from_u8 (frame_flags log)),
    frame_stream_id log)) =
  (255, FtData, true, 2147483647).
Proof. vm_compute. reflexivity. Qed.

(* /repo/src/http2/test/go_away.rs:27-93 *)
Example go_away_go_away_with_debug_data :
  (let '(p, log, _) := resume true debug new []
     (pack_u32 5383 ++
      pack_u8 0 ++
      pack_u32 2147483647 ++
      pack_u32 2147483647 ++
      pack_u32 3152985070 ++
      bs "Hello, world!") in
   (flags_is_empty (flags_from_u8 (frame_flags log)),
    frame_type_from_u8 (frame_type_of log),
    go_away_stream_id log,
    go_away_error_code log,
    text KDebug log,
    finished KDebug log,
    state p)) =
  (true, FtGoAway, 2147483647, 3152985070, bs "Hello, world!", true, StFrameLength1).
Proof. vm_compute. reflexivity. Qed.

(* /repo/src/http2/test/go_away.rs:96-149 *)
Example go_away_go_away_without_debug_data :
  (let '(p, log, _) := resume true debug new []
     (pack_u32 2055 ++
      pack_u8 0 ++
      pack_u32 2147483647 ++
      pack_u32 2147483647 ++
      pack_u32 3152985070) in
   (flags_is_empty (flags_from_u8 (frame_flags log)),
    frame_type_from_u8 (frame_type_of log),
    go_away_stream_id log,
    go_away_error_code log,
    state p)) =
  (true, FtGoAway, 2147483647, 3152985070, StFrameLength1).
Proof. vm_compute. reflexivity. Qed.

(* /repo/src/http2/test/headers.rs:27-93 *)
Example headers_with_padding_without_priority :
  (let '(p, log, _) := resume true debug new []
     (pack_u32 6145 ++
      pack_u8 8 ++
      pack_u32 2147483647 ++
      pack_u8 10 ++
      bs "Hello, world!" ++
      bs "XXXXXXXXXX") in
   (flags_is_padded (flags_from_u8 (frame_flags log)),
    frame_type_from_u8 (frame_type_of log),
    headers_exclusive log,
    headers_stream_id log,
    headers_weight log,
    text KFragment log,
    state p)) =
  (true, FtHeaders, false, 0, 0, bs "Hello, world!", StFrameLength1).
Proof. vm_compute. reflexivity. Qed.

(* /repo/src/http2/test/headers.rs:96-175 *)
Example headers_with_padding_with_priority :
  (let '(p, log, _) := resume true debug new []
     (pack_u32 7425 ++
      pack_u8 40 ++
      pack_u32 2147483647 ++
      pack_u8 10 ++
      pack_u32 4294967295 ++
      pack_u8 99 ++
      bs "Hello, world!" ++
      bs "XXXXXXXXXX") in
   (flags_is_padded (flags_from_u8 (frame_flags log)),
    flags_is_priority (flags_from_u8 (frame_flags log)),
    frame_type_from_u8 (frame_type_of log),
    headers_exclusive log,
    headers_stream_id log,
    headers_weight log,
    text KFragment log,
    state p)) =
  (true, true, FtHeaders, true, 2147483647, 99, bs "Hello, world!", StFrameLength1).
Proof. vm_compute. reflexivity. Qed.

(* /repo/src/http2/test/headers.rs:178-234 *)
Example headers_without_padding_without_priority :
  (let '(p, log, _) := resume true debug new []
     (pack_u32 3329 ++
      pack_u8 0 ++
      pack_u32 2147483647 ++
      bs "Hello, world!") in
   (flags_is_empty (flags_from_u8 (frame_flags log)),
    frame_type_from_u8 (frame_type_of log),
    headers_exclusive log,
    headers_stream_id log,
    headers_weight log,
    text KFragment log,
    finished KFragment log,
    state p)) =
  (true, FtHeaders, false, 0, 0, bs "Hello, world!", true, StFrameLength1).
Proof. vm_compute. reflexivity. Qed.

(* /repo/src/http2/test/headers.rs:237-305 *)
Example headers_without_padding_with_priority :
  (let '(p, log, _) := resume true debug new []
     (pack_u32 4609 ++
      pack_u8 32 ++
      pack_u32 2147483647 ++
      pack_u32 4294967295 ++
      pack_u8 99 ++
      bs "Hello, world!") in
   (flags_is_priority (flags_from_u8 (frame_flags log)),
    frame_type_from_u8 (frame_type_of log),
    headers_exclusive log,
    headers_stream_id log,
    headers_weight log,
    text KFragment log,
    finished KFragment log,
    state p)) =
  (true, FtHeaders, true, 2147483647, 99, bs "Hello, world!", true, StFrameLength1).
Proof. vm_compute. reflexivity. Qed.

(* /repo/src/http2/test/ping.rs:27-73 *)
Example ping_ping :
  (let '(p, log, _) := resume true debug new []
     (pack_u32 2054 ++
      pack_u8 1 ++
      pack_u32 2147483647 ++
      pack_u32 4289387946 ++
      pack_u32 4289387946) in
   (flags_is_ack (flags_from_u8 (frame_flags log)),
    frame_type_from_u8 (frame_type_of log),
    text KPing log,
    state p)) =
  (true, FtPing, [255; 170; 221; 170; 255; 170; 221; 170], StFrameLength1).
Proof. vm_compute. reflexivity. Qed.

(* /repo/src/http2/test/priority.rs:27-82 *)
Example priority_is_exclusive :
  (let '(p, log, _) := resume true debug new []
     (pack_u32 10242 ++
      pack_u8 0 ++
      pack_u32 2147483647 ++
      pack_u32 2147483690 ++
      pack_u8 99) in
   (flags_is_empty (flags_from_u8 (frame_flags log)),
    frame_type_from_u8 (frame_type_of log),
    priority_exclusive log,
    priority_stream_id log,
    priority_weight log,
    state p)) =
  (true, FtPriority, true, 42, 99, StFrameLength1).
Proof. vm_compute. reflexivity. Qed.

(* /repo/src/http2/test/priority.rs:85-140 *)
Example priority_is_not_exclusive :
  (let '(p, log, _) := resume true debug new []
     (pack_u32 10242 ++
      pack_u8 0 ++
      pack_u32 2147483647 ++
      pack_u32 42 ++
      pack_u8 99) in
   (flags_is_empty (flags_from_u8 (frame_flags log)),
    frame_type_from_u8 (frame_type_of log),
    priority_exclusive log,
    priority_stream_id log,
    priority_weight log,
    state p)) =
  (true, FtPriority, false, 42, 99, StFrameLength1).
Proof. vm_compute. reflexivity. Qed.

(* /repo/src/http2/test/push_promise.rs:27-92 *)
Example push_promise_push_promise_with_padding :
  (let '(p, log, _) := resume true debug new []
     (pack_u32 7173 ++
      pack_u8 8 ++
      pack_u32 2147483647 ++
      pack_u8 10 ++
      pack_u32 65518 ++
      bs "Hello, world!" ++
      bs "XXXXXXXXXX") in
   (flags_is_padded (flags_from_u8 (frame_flags log)),
    frame_type_from_u8 (frame_type_of log),
    push_promise_stream_id log,
    text KFragment log,
    state p)) =
  (true, FtPushPromise, 65518, bs "Hello, world!", StFrameLength1).
Proof. vm_compute. reflexivity. Qed.

(* /repo/src/http2/test/push_promise.rs:95-148 *)
Example push_promise_push_promise_without_padding :
  (let '(p, log, _) := resume true debug new []
     (pack_u32 4357 ++
      pack_u8 0 ++
      pack_u32 2147483647 ++
      pack_u32 65518 ++
      bs "Hello, world!") in
   (flags_is_empty (flags_from_u8 (frame_flags log)),
    frame_type_from_u8 (frame_type_of log),
    push_promise_stream_id log,
    text KFragment log,
    state p)) =
  (true, FtPushPromise, 65518, bs "Hello, world!", StFrameLength1).
Proof. vm_compute. reflexivity. Qed.

(* /repo/src/http2/test/rst_stream.rs:27-69 *)
Example rst_stream_rst_stream :
  (let '(p, log, _) := resume true debug new []
     (pack_u32 10243 ++
      pack_u8 0 ++
      pack_u32 2147483647 ++
      pack_u32 4294967295) in
   (flags_is_empty (flags_from_u8 (frame_flags log)),
    frame_type_from_u8 (frame_type_of log),
    rst_stream_error_code log,
    state p)) =
  (true, FtRstStream, 4294967295, StFrameLength1).
Proof. vm_compute. reflexivity. Qed.

(* /repo/src/http2/test/settings.rs:27-80 *)
Example settings_settings :
  (let '(p, log, _) := resume true debug new []
     (pack_u32 12292 ++
      pack_u8 0 ++
      pack_u32 2147483647 ++
      pack_u16 65535 ++
      pack_u32 4294967295) in
   (flags_is_empty (flags_from_u8 (frame_flags log)),
    frame_type_from_u8 (frame_type_of log),
    settings_id log,
    settings_value log,
    state p)) =
  (true, FtSettings, 65535, 4294967295, StFrameLength1).
Proof. vm_compute. reflexivity. Qed.

(* /repo/src/http2/test/window_update.rs:27-69 *)
Example window_update_window_update :
  (let '(p, log, _) := resume true debug new []
     (pack_u32 1032 ++
      pack_u8 0 ++
      pack_u32 2147483647 ++
      pack_u32 305419896) in
   (flags_is_empty (flags_from_u8 (frame_flags log)),
    frame_type_from_u8 (frame_type_of log),
    window_update_size_increment log,
    state p)) =
  (true, FtWindowUpdate, 305419896, StFrameLength1).
Proof. vm_compute. reflexivity. Qed.

