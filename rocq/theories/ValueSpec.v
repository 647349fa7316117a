(* Values of header fields as RFC 7230 has them, and where they stop being read. *)

From Coq Require Import NArith List Bool.
From Verif Require Import Bytes Http1Wire.
Import ListNotations.
Local Open Scope N_scope.

(* RFC 7230, 3.2: field-value = *( field-content / obs-fold ), here on one line: nothing,
   or visible bytes and bytes from 128 with spaces and tabs between them. *)
Definition field_vchar (b : byte) : Prop := 33 <= b <= 126 \/ 128 <= b <= 255.
Definition field_value (v : list byte) : Prop :=
  v = [] \/
  (field_vchar (hd 0 v) /\ field_vchar (last v 0) /\
   Forall (fun b => field_vchar b \/ b = 32 \/ b = 9) v).

(* Text inside of quotes: bytes that are text, and a backslash with the byte it escapes,
   from 0x20 to 0x7A. *)
Inductive quoted : list byte -> Prop :=
| quoted_nil : quoted []
| quoted_text w b : quoted w -> field_byte b = true -> b <> 34 -> b <> 92 -> quoted (w ++ [b])
| quoted_pair w b : quoted w -> 32 <= b <= 122 -> quoted (w ++ [92; b]).

(* After v, the byte b: in the place of the first byte of a value, a byte that is not
   visible; in quotes that are not closed, a byte that is no text, such as the CR at the
   end of the line; after a backslash in quotes, a byte that cannot be escaped; elsewhere, a
   byte that is no text and no CR. *)
Inductive stops : list byte -> byte -> Prop :=
| stops_first b : visible_byte b = false -> b <> 32 -> b <> 9 -> stops [] b
| stops_quoted v w b :
    starts_visible (v ++ [34]) -> field_text_ok Plain v = true -> quoted w ->
    field_byte b = false -> b < 255 -> stops (v ++ 34 :: w) b
| stops_escaped v w b :
    starts_visible (v ++ [34]) -> field_text_ok Plain v = true -> quoted w ->
    b < 32 \/ 122 < b -> stops (v ++ 34 :: w ++ [92]) b
| stops_text v b :
    starts_visible v -> field_text_ok Plain v = true ->
    field_byte b = false -> b < 255 -> b <> 13 -> stops v b.

(* Values the parser takes: they begin with a visible ASCII byte, and every quote in them
   is closed, with escapes of bytes from 0x20 to 0x7A only between them. *)
Definition taken (v : list byte) : Prop := starts_visible v /\ field_text_ok Plain v = true.

(* A request with one more field. *)
Definition add_field (q : request) (f : header) : request :=
  Request (q_blank q) (q_method q) (q_url q) (q_version q) (q_headers q ++ [f]).
Definition add_answer_field (r : response) (f : header) : response :=
  Response (r_blank r) (r_version r) (r_code r) (r_reason r) (r_headers r ++ [f]).
