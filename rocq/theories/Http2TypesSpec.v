(* The registries of RFC 7540, sections 11.2 to 11.4, in numerical order, against
   which the small HTTP/2 types are checked, and facts about them. *)

From Coq Require Import NArith List Bool Lia.
From Verif Require Import Http2Types.
Import ListNotations.
Local Open Scope N_scope.

(* RFC 7540, 11.2: frame types 0 to 9 *)
Definition rfc_types : list frame_type :=
  [FtData; FtHeaders; FtPriority; FtRstStream; FtSettings; FtPushPromise; FtPing; FtGoAway;
   FtWindowUpdate; FtContinuation].

(* RFC 7540, 11.4: error codes 0 to 13 *)
Definition rfc_errors : list error_code :=
  [EcNoError; EcProtocol; EcInternal; EcFlowControl; EcSettingsTimeout; EcStreamClosed; EcFrameSize;
   EcRefusedStream; EcCancel; EcCompression; EcConnect; EcEnhanceYourCalm; EcInadequateSecurity;
   EcHttp11Required].

(* RFC 7540, 11.3: settings 1 to 6 *)
Definition rfc_settings : list (N -> setting) :=
  [SeHeaderTableSize; SeEnablePush; SeMaxConcurrentStreams; SeInitialWindowSize; SeMaxFrameSize;
   SeMaxHeaderListSize].

(* The entry number n of a registry that starts at number first. *)
Definition entry {X} (first : N) (l : list X) (n : N) : option X :=
  if n <? first then None else nth_error l (N.to_nat (n - first)).

(* The predicates of FrameType in the order of the registry, then
   is_unsupported. *)
Definition type_tests : list (frame_type -> bool) :=
  [frame_type_is_data; frame_type_is_headers; frame_type_is_priority; frame_type_is_rst_stream;
   frame_type_is_settings; frame_type_is_push_promise; frame_type_is_push_ping;
   frame_type_is_go_away; frame_type_is_window_update; frame_type_is_continuation;
   frame_type_is_unsupported].

Definition error_tests : list (error_code -> bool) :=
  [error_code_is_no_error; error_code_is_protocol; error_code_is_internal;
   error_code_is_flow_control; error_code_is_settings_timeout; error_code_is_stream_closed;
   error_code_is_frame_size; error_code_is_refused_stream; error_code_is_cancel;
   error_code_is_compression; error_code_is_connect; error_code_is_enhance_your_calm;
   error_code_is_inadequate_security; error_code_is_http_1_1_required].

Definition setting_tests : list (setting -> bool) :=
  [setting_is_header_table_size; setting_is_enable_push; setting_is_max_concurrent_streams;
   setting_is_initial_window_size; setting_is_max_frame_size; setting_is_max_header_list_size;
   setting_is_unsupported].

(* Exactly the test number n of the list holds. *)
Definition only {X} (tests : list (X -> bool)) (n : N) (x : X) : Prop :=
  map (fun t => t x) tests = map (N.eqb n) (map N.of_nat (seq 0 (List.length tests))).
