(* Bytes, byte classes and lookup tables used by both parsers and the
   utilities.  Models /repo/src/byte.rs (whole file) and the byte-class macros
   of the external crate byte_slice 0.1.11 (see DESIGN.md, trusted base). *)

From Coq Require Import NArith List Bool Ascii String.
Import ListNotations.
Local Open Scope N_scope.

(* A byte (Rust u8) is an N; inputs are lists of N.  Statements that depend on
   the value being below 256 say so explicitly. *)
Definition byte := N.

(* Rust byte-string literals b"..." (used throughout /repo/src); only
   printable characters are written this way, CR and LF are written 13 and
   10. *)
Fixpoint bs (s : string) : list byte :=
  match s with
  | EmptyString => []
  | String a s' => N_of_ascii a :: bs s'
  end.

(* Equality of byte slices (Rust [u8] == [u8]), used by the model of
   bs_starts_with! (byte_slice crate). *)
Fixpoint beq (a b : list byte) : bool :=
  match a, b with
  | [], [] => true
  | x :: a', y :: b' => (x =? y) && beq a' b'
  | _, _ => false
  end.

(* byte_slice crate, is_digit!: used in /repo/src/http1/parser.rs:873 etc. *)
Definition is_digit (b : byte) : bool := (48 <=? b) && (b <=? 57).

(* byte_slice crate, is_hex!: used in /repo/src/http1/parser.rs:1913 etc. *)
Definition is_hex (b : byte) : bool :=
  is_digit b || ((65 <=? b) && (b <=? 70)) || ((97 <=? b) && (b <=? 102)).

(* byte_slice crate, is_visible_7bit!: /repo/src/collect.rs:161 documents the
   range 0x21 thru 0x7E. *)
Definition is_visible_7bit (b : byte) : bool := (33 <=? b) && (b <=? 126).

(* The test "context.byte > 0x40 && context.byte < 0x5B", /repo/src/http1/parser.rs:547,
   1605, 1641, 2237, 2260; also /repo/src/util/field.rs. *)
Definition is_upper (b : byte) : bool := (64 <? b) && (b <? 91).

(* /repo/src/byte.rs:20-91, static HEADER_FIELDS: [bool; 255]. Bytes allowed in non-quoted header fields.
   Entries 0 to 254, copied literally. *)
Definition HEADER_FIELDS : list bool := [
  false; false; false; false; false; false; false; false; false; true;
  false; false; false; false; false; false; false; false; false; false;
  false; false; false; false; false; false; false; false; false; false;
  false; false; true; true; false; true; true; true; true; true;
  true; true; true; true; true; true; true; true; true; true;
  true; true; true; true; true; true; true; true; true; true;
  true; true; true; true; true; true; true; true; true; true;
  true; true; true; true; true; true; true; true; true; true;
  true; true; true; true; true; true; true; true; true; true;
  true; true; true; true; true; true; true; true; true; true;
  true; true; true; true; true; true; true; true; true; true;
  true; true; true; true; true; true; true; true; true; true;
  true; true; true; true; true; true; true; false; true; true;
  true; true; true; true; true; true; true; true; true; true;
  true; true; true; true; true; true; true; true; true; true;
  true; true; true; true; true; true; true; true; true; true;
  true; true; true; true; true; true; true; true; true; true;
  true; true; true; true; true; true; true; true; true; true;
  true; true; true; true; true; true; true; true; true; true;
  true; true; true; true; true; true; true; true; true; true;
  true; true; true; true; true; true; true; true; true; true;
  true; true; true; true; true; true; true; true; true; true;
  true; true; true; true; true; true; true; true; true; true;
  true; true; true; true; true; true; true; true; true; true;
  true; true; true; true; true; true; true; true; true; true;
  true; true; true; true; true
].

(* /repo/src/byte.rs:94-165, static QUOTED_HEADER_FIELDS: [bool; 255]. Bytes allowed in quoted header fields.
   Entries 0 to 254, copied literally. *)
Definition QUOTED_HEADER_FIELDS : list bool := [
  false; false; false; false; false; false; false; false; false; true;
  false; false; false; false; false; false; false; false; false; false;
  false; false; false; false; false; false; false; false; false; false;
  false; false; true; true; false; true; true; true; true; true;
  true; true; true; true; true; true; true; true; true; true;
  true; true; true; true; true; true; true; true; true; true;
  true; true; true; true; true; true; true; true; true; true;
  true; true; true; true; true; true; true; true; true; true;
  true; true; true; true; true; true; true; true; true; true;
  true; true; false; true; true; true; true; true; true; true;
  true; true; true; true; true; true; true; true; true; true;
  true; true; true; true; true; true; true; true; true; true;
  true; true; true; true; true; true; true; false; true; true;
  true; true; true; true; true; true; true; true; true; true;
  true; true; true; true; true; true; true; true; true; true;
  true; true; true; true; true; true; true; true; true; true;
  true; true; true; true; true; true; true; true; true; true;
  true; true; true; true; true; true; true; true; true; true;
  true; true; true; true; true; true; true; true; true; true;
  true; true; true; true; true; true; true; true; true; true;
  true; true; true; true; true; true; true; true; true; true;
  true; true; true; true; true; true; true; true; true; true;
  true; true; true; true; true; true; true; true; true; true;
  true; true; true; true; true; true; true; true; true; true;
  true; true; true; true; true; true; true; true; true; true;
  true; true; true; true; true
].

(* /repo/src/byte.rs:168-239, static TOKENS: [bool; 255]. Bytes that are considered tokens.
   Entries 0 to 254, copied literally. *)
Definition TOKENS : list bool := [
  false; false; false; false; false; false; false; false; false; false;
  false; false; false; false; false; false; false; false; false; false;
  false; false; false; false; false; false; false; false; false; false;
  false; false; false; true; false; true; true; true; true; true;
  false; false; true; true; false; true; true; false; true; true;
  true; true; true; true; true; true; true; true; false; false;
  false; false; false; false; false; true; true; true; true; true;
  true; true; true; true; true; true; true; true; true; true;
  true; true; true; true; true; true; true; true; true; true;
  true; false; false; false; true; true; true; true; true; true;
  true; true; true; true; true; true; true; true; true; true;
  true; true; true; true; true; true; true; true; true; true;
  true; true; true; false; true; false; true; false; false; false;
  false; false; false; false; false; false; false; false; false; false;
  false; false; false; false; false; false; false; false; false; false;
  false; false; false; false; false; false; false; false; false; false;
  false; false; false; false; false; false; false; false; false; false;
  false; false; false; false; false; false; false; false; false; false;
  false; false; false; false; false; false; false; false; false; false;
  false; false; false; false; false; false; false; false; false; false;
  false; false; false; false; false; false; false; false; false; false;
  false; false; false; false; false; false; false; false; false; false;
  false; false; false; false; false; false; false; false; false; false;
  false; false; false; false; false; false; false; false; false; false;
  false; false; false; false; false; false; false; false; false; false;
  false; false; false; false; false
].

(* Rust array indexing TABLE[byte as usize]: None models the bounds-check
   panic (the tables have 255 entries, so index 255 is out of range). *)
Definition lookup (t : list bool) (b : byte) : option bool :=
  nth_error t (N.to_nat b).

(* /repo/src/byte.rs:243-245 *)
Definition is_header_field (b : byte) : option bool := lookup HEADER_FIELDS b.

(* /repo/src/byte.rs:251-253 *)
Definition is_quoted_header_field (b : byte) : option bool :=
  lookup QUOTED_HEADER_FIELDS b.

(* /repo/src/byte.rs:257-259 *)
Definition is_token (b : byte) : option bool := lookup TOKENS b.

(* hex_to_byte!, /repo/src/http1/parser.rs:73-86 (u8 subtraction; the model
   uses truncated subtraction on N, the macro is applied to hex digits only). *)
Definition hex_to_byte (b : byte) : N :=
  if (47 <? b) && (b <? 58) then b - 48
  else if (64 <? b) && (b <? 91) then b - 55
  else b - 87.

(* The nested conditional of collect_hex8!, /repo/src/collect.rs:51-59, also
   written out in /repo/src/http1/parser.rs:2970-2978, 2997-3005, 3094-3102,
   3121-3129: value of one hex digit, None for any other byte. *)
Definition hex_digit (b : byte) : option N :=
  if is_digit b then Some (b - 48)
  else if (64 <? b) && (b <? 71) then Some (b - 55)
  else if (96 <? b) && (b <? 103) then Some (b - 87)
  else None.
