(* Model of byte_slice::ByteStream and its bs_* macros.

   The crate byte_slice 0.1.11 (external dependency, /repo/Cargo.toml) is not
   part of /repo; its semantics below is an assumption recorded in DESIGN.md.

   A ByteStream has the fields byte, mark_index, stream, stream_index.  The
   model keeps the part of the stream between mark_index and stream_index
   (cslice) and the part from stream_index on (crest) instead of the whole
   stream:
       stream[mark_index .. stream_index] = cslice
       stream[stream_index ..]            = crest
       mark_index                         = cmark
       stream_index                       = cmark + length cslice *)

From Coq Require Import NArith List Bool Arith.
From Verif Require Import Bytes.
Import ListNotations.

(* struct ByteStream (byte_slice crate), see above. *)
Record ctx := Ctx {
  cbyte  : byte;        (* last byte fetched by bs_next!, initially 0 *)
  cmark  : nat;         (* mark_index *)
  cslice : list byte;   (* stream[mark_index .. stream_index] *)
  crest  : list byte    (* stream[stream_index ..] *)
}.

(* ByteStream::new, used in /repo/src/http1/parser.rs:293,318. *)
Definition bs_new (stream : list byte) : ctx := Ctx 0%N 0 [] stream.

(* context.stream_index *)
Definition cindex (c : ctx) : nat := cmark c + length (cslice c).

(* bs_available! *)
Definition bs_available (c : ctx) : nat := length (crest c).

(* bs_has_bytes! *)
Definition bs_has_bytes (c : ctx) (n : nat) : bool := n <=? length (crest c).

(* bs_slice_length! *)
Definition bs_slice_length (c : ctx) : nat := length (cslice c).

(* bs_slice! *)
Definition bs_slice (c : ctx) : list byte := cslice c.

(* bs_slice_ignore!: the slice without its last byte. *)
Definition bs_slice_ignore (c : ctx) : list byte := removelast (cslice c).

(* bs_next!: fetch a byte; None models the out-of-range access. *)
Definition bs_next (c : ctx) : option ctx :=
  match crest c with
  | [] => None
  | b :: r => Some (Ctx b (cmark c) (cslice c ++ [b]) r)
  end.

(* bs_replay!: stream_index -= 1.  Every use in /repo directly follows a
   bs_next! without an intervening mark, so the slice is not empty; for an
   empty slice the model leaves the context unchanged. *)
Definition bs_replay (c : ctx) : ctx :=
  match cslice c with
  | [] => c
  | _ => Ctx (cbyte c) (cmark c) (removelast (cslice c))
             (last (cslice c) 0%N :: crest c)
  end.

(* bs_mark!(context, context.stream_index) *)
Definition bs_mark (c : ctx) : ctx := Ctx (cbyte c) (cindex c) [] (crest c).

(* bs_jump! and bs_collect_length!: stream_index += n; every use is guarded by
   an availability check. *)
Definition bs_jump (c : ctx) (n : nat) : ctx :=
  Ctx (cbyte c) (cmark c) (cslice c ++ firstn n (crest c)) (skipn n (crest c)).

(* bs_starts_with1! .. bs_starts_with24! (unsafe, unchecked reads of as many
   bytes as the literal has) and bs_starts_with!: None models a read beyond
   the end of the stream. *)
Definition bs_starts_with (c : ctx) (lit : list byte) : option bool :=
  if length lit <=? length (crest c)
  then Some (beq (firstn (length lit) (crest c)) lit)
  else None.

(* Result of a collection loop: stopped at a byte (which has been fetched),
   reached the end of the stream, or panicked in the stop condition. *)
Inductive collected :=
| CStop (c : ctx)
| CEos (c : ctx)
| CPanic (c : ctx).

(* bs_collect! with a body "if stop { break; }" (all uses in /repo have this
   shape, see /repo/src/collect.rs:22-182 and http1/parser.rs:679,1407), and
   bs_collect_until!: loop { if eos {..}; bs_next!; if stop { break } }.  The
   stop condition may panic (table lookup), modelled by None. *)
Fixpoint collect_loop (stop : byte -> option bool) (cb : byte) (mk : nat)
         (sl r : list byte) : collected :=
  match r with
  | [] => CEos (Ctx cb mk sl [])
  | b :: r' =>
      match stop b with
      | None => CPanic (Ctx b mk (sl ++ [b]) r')
      | Some true => CStop (Ctx b mk (sl ++ [b]) r')
      | Some false => collect_loop stop b mk (sl ++ [b]) r'
      end
  end.

(* bs_collect! / bs_collect_until!, see collect_loop. *)
Definition bs_collect (stop : byte -> option bool) (c : ctx) : collected :=
  collect_loop stop (cbyte c) (cmark c) (cslice c) (crest c).

(* "!table(byte) || stop", the stop condition built by collect_field! /
   collect_tokens!, /repo/src/collect.rs:22-40,141-159: the table lookup comes
   first. *)
Definition stop_table (tbl : byte -> option bool) (stop : byte -> bool)
           (b : byte) : option bool :=
  match tbl b with
  | None => None
  | Some ok => Some (negb ok || stop b)
  end.

(* collect_field!, /repo/src/collect.rs:22-40 *)
Definition collect_field (stop : byte -> bool) : ctx -> collected :=
  bs_collect (stop_table is_header_field stop).

(* collect_quoted_field!, /repo/src/collect.rs:127-136 *)
Definition collect_quoted_field : ctx -> collected :=
  bs_collect (stop_table is_quoted_header_field (fun _ => false)).

(* collect_tokens!, /repo/src/collect.rs:141-159 *)
Definition collect_tokens (stop : byte -> bool) : ctx -> collected :=
  bs_collect (stop_table is_token stop).

(* collect_visible_7bit!, /repo/src/collect.rs:164-182 *)
Definition collect_visible_7bit (stop : byte -> bool) : ctx -> collected :=
  bs_collect (fun b => Some (negb (is_visible_7bit b) || stop b)).

(* consume_linear_space!, /repo/src/collect.rs:187-207: if the first byte is a
   space or a tab, fetch up to the first byte that is neither; otherwise fetch
   one byte.  Both cases are the same loop.  (The unsafe one-byte comparison
   is guarded by the preceding availability check.) *)
Definition consume_linear_space : ctx -> collected :=
  bs_collect (fun b => Some (negb ((b =? 32)%N || (b =? 9)%N))).
