(* How values are written: vocabulary of C65.  Independent of the model. *)

From Coq Require Import NArith List Bool String Ascii.
Import ListNotations.
Local Open Scope N_scope.

(* The number a string of decimal digits stands for, after those of acc. *)
Fixpoint number_after (acc : N) (s : string) : option N :=
  match s with
  | EmptyString => Some acc
  | String c s =>
      let d := N_of_ascii c in
      if (48 <=? d) && (d <=? 57) then number_after (10 * acc + (d - 48)) s else None
  end.

(* s writes n in decimal: at least one digit, no needless zero in front. *)
Definition writes (s : string) (n : N) : Prop :=
  number_after 0 s = Some n /\ s <> EmptyString /\ (forall t, s = String "0" t -> t = EmptyString).

Local Open Scope string_scope.

(* <Type::Name> *)
Definition named (ty name s : string) : Prop := s = "<" ++ ty ++ "::" ++ name ++ ">".
(* <Type::Name: n>, perhaps with some words before the number *)
Definition valued (ty name words : string) (n : N) (s : string) : Prop :=
  exists d, writes d n /\ s = "<" ++ ty ++ "::" ++ name ++ ": " ++ words ++ d ++ ">".
(* Type::Name(n) *)
Definition applied (ty name : string) (n : N) (s : string) : Prop :=
  exists d, writes d n /\ s = ty ++ "::" ++ name ++ "(" ++ d ++ ")".
(* true or false *)
Definition yes_no (b : bool) : string := if b then "true" else "false".

(* Row number i of a table, or what is said of all numbers outside it. *)
Definition row (table : list string) (i : N) : string :=
  match nth_error table (N.to_nat i) with Some name => name | None => "Unsupported" end.

(* RFC 7540, 11.2: frame types 0x0 to 0x9. *)
Definition frame_type_names : list string :=
  ["Data"; "Headers"; "Priority"; "RstStream"; "Settings"; "PushPromise"; "Ping"; "GoAway"; "WindowUpdate";
   "Continuation"].
(* RFC 7540, 7: error codes 0x0 to 0xd. *)
Definition error_code_names : list string :=
  ["NoError"; "Protocol"; "Internal"; "FlowControl"; "SettingsTimeout"; "StreamClosed"; "FrameSize";
   "RefusedStream"; "Cancel"; "Compression"; "Connect"; "EnhanceYourCalm"; "InadequateSecurity"; "Http11Required"].
(* RFC 7540, 6.5.2: settings 0x1 to 0x6; 0 is none. *)
Definition setting_names : list string :=
  ["Unsupported"; "HeaderTableSize"; "EnablePush"; "MaxConcurrentStreams"; "InitialWindowSize"; "MaxFrameSize";
   "MaxHeaderListSize"].

(* RFC 7540, 6: the bits of the flags END_STREAM or ACK, END_HEADERS, PADDED, PRIORITY. *)
Definition flags_written (byte : N) (s : string) : Prop :=
  s = "<Flags: ack: " ++ yes_no (N.testbit byte 0) ++ ", end_headers: " ++ yes_no (N.testbit byte 2) ++
      ", end_stream: " ++ yes_no (N.testbit byte 0) ++ ", padded: " ++ yes_no (N.testbit byte 3) ++
      ", priority: " ++ yes_no (N.testbit byte 5) ++ ">".

(* A frame header, by its four fields on the wire. *)
Definition frame_written (payload_length frame_type flags stream_id : N) (s : string) : Prop :=
  exists f t l i,
    flags_written flags f /\ named "FrameType" (row frame_type_names frame_type) t /\
    writes l payload_length /\ writes i stream_id /\
    s = "<FrameFormat: flags: " ++ f ++ ", frame_type: " ++ t ++ ", payload_length: " ++ l ++
        ", stream_id: " ++ i ++ ">".
