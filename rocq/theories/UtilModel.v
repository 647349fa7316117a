(* Model of /repo/src/util: decode (decode.rs), QueryIterator (query.rs) and
   FieldIterator (field.rs), with the macros of mod.rs and collect.rs they use.

   Simplifications.  A String is the list of its bytes (the code writes bytes
   into a String through as_mut_vec without any check).  The buffers name and
   value of the iterators are cleared at the beginning of every next() call
   (query.rs:163-164, field.rs:169-170), so they are accumulators of the model
   functions rather than state; the state of an iterator is its ByteStream.
   The on_error closure is modelled by the list of errors passed to it.  Loops
   carry fuel; NFuel / None stand for "fuel exhausted", which the theorems of
   C49 exclude. *)

From Coq Require Import NArith List Bool Arith.
From Verif Require Import Bytes ByteStream.
Import ListNotations.
Local Open Scope N_scope.

(* ------------------------------------------------------------------ hex *)

(* Result of collect_hex8! and collect_hex8_iter!. *)
Inductive hex8 :=
| HexOk (v : byte) (c : ctx)      (* the value of the expression *)
| HexBad (c : ctx)                (* early return; the error carries cbyte c *)
| HexEnd.                         (* read beyond the end of the stream *)

(* collect_hex8!, /repo/src/collect.rs:46-78, and collect_hex8_iter!,
   /repo/src/collect.rs:86-122 (they differ in what the early return does).
   The sum of the two digits is at most 255. *)
Definition collect_hex8 (c : ctx) : hex8 :=
  match bs_next c with
  | None => HexEnd
  | Some c1 =>
      match hex_digit (cbyte c1) with
      | None => HexBad c1
      | Some hi =>
          match bs_next c1 with
          | None => HexEnd
          | Some c2 =>
              match hex_digit (cbyte c2) with
              | None => HexBad c2
              | Some lo => HexOk (N.shiftl hi 4 + lo) c2
              end
          end
      end
  end.

(* "if bs_has_bytes!(context, 1) { bs_next!(context); }",
   /repo/src/util/decode.rs:139-141, query.rs:203-205, 275-277 *)
Definition next_if_any (c : ctx) : ctx :=
  match bs_next c with Some c' => c' | None => c end.

(* --------------------------------------------------------------- decode *)

(* DecodeError, /repo/src/util/decode.rs:22-28 *)
Inductive decode_error :=
| DByte (b : byte)
| DHexSequence (b : byte).

(* Result of decode; DPanic: read beyond the end of the stream. *)
Inductive decode_result :=
| DOk (s : list byte)
| DErr (e : decode_error)
| DPanic
| DFuel.

(* The loop of decode, /repo/src/util/decode.rs:107-148 *)
Fixpoint decode_loop (fuel : nat) (c : ctx) (string : list byte) : decode_result :=
  match fuel with
  | O => DFuel
  | S fuel' =>
      match collect_visible_7bit (fun b => (b =? 43) || (b =? 37)) (bs_mark c) with
      | CPanic _ => DPanic
      | CEos c1 =>
          DOk (if (0 <? bs_slice_length c1)%nat then string ++ bs_slice c1 else string)
      | CStop c1 =>
          let string1 := if (1 <? bs_slice_length c1)%nat
                         then string ++ bs_slice_ignore c1 else string in
          if cbyte c1 =? 43 then decode_loop fuel' c1 (string1 ++ [32])
          else if cbyte c1 =? 37 then
            if bs_has_bytes c1 2 then
              match collect_hex8 c1 with
              | HexOk v c2 => decode_loop fuel' c2 (string1 ++ [v])
              | HexBad c2 => DErr (DHexSequence (cbyte c2))
              | HexEnd => DPanic
              end
            else DErr (DHexSequence (cbyte (next_if_any c1)))
          else DErr (DByte (cbyte c1))
      end
  end.

(* decode, /repo/src/util/decode.rs:97-149 *)
Definition decode (encoded : list byte) : decode_result :=
  decode_loop (S (length encoded)) (bs_new encoded) [].

(* ------------------------------------------------------------ iterators *)

(* What one call of next() returns. *)
Inductive next_result :=
| NItem (name : list byte) (value : option (list byte))   (* Some((name, value)) *)
| NNone                                                   (* None *)
| NPanic                                                  (* the call panics *)
| NFuel.                                                  (* does not happen *)

(* QueryError (/repo/src/util/query.rs:22-28) and FieldError
   (/repo/src/util/field.rs:23-29) have the same two variants. *)
Inductive iter_error :=
| EName (b : byte)
| EValue (b : byte).

(* One next() call: its result, the errors passed to on_error, and the stream
   it leaves. *)
Definition outcome : Type := next_result * list iter_error * ctx.

(* bs_jump!(context, bs_available!(context)) *)
Definition jump_end (c : ctx) : ctx := bs_jump c (bs_available c).

(* submit_error!, /repo/src/util/mod.rs:19-27; the same three steps are written
   out in query.rs:230-234, 291-295 and field.rs:264-268, 300-304, 321-325. *)
Definition submit_error (e : byte -> iter_error) (c : ctx) : outcome :=
  (NNone, [e (cbyte c)], jump_end c).

(* submit_name!, /repo/src/util/mod.rs:29-41 *)
Definition submit_name (name : list byte) (c : ctx) : outcome := (NItem name None, [], c).

(* submit_name_value!, /repo/src/util/mod.rs:42-76 *)
Definition submit_name_value (name value : list byte) (c : ctx) : outcome :=
  (NItem name (Some value), [], c).

(* QueryIterator::next, the value loop, /repo/src/util/query.rs:240-298 *)
Fixpoint query_value (fuel : nat) (c : ctx) (name value : list byte) : outcome :=
  match fuel with
  | O => (NFuel, [], c)
  | S fuel' =>
      match collect_visible_7bit
              (fun b => (b =? 37) || (b =? 43) || (b =? 38) || (b =? 59)) (bs_mark c) with
      | CPanic c1 => (NPanic, [], c1)
      | CEos c1 =>
          submit_name_value name
            (if (0 <? bs_slice_length c1)%nat then value ++ bs_slice c1 else value) c1
      | CStop c1 =>
          let value1 := if (1 <? bs_slice_length c1)%nat
                        then value ++ bs_slice_ignore c1 else value in
          if cbyte c1 =? 37 then
            if bs_has_bytes c1 2 then
              match collect_hex8 c1 with
              | HexOk v c2 => query_value fuel' c2 name (value1 ++ [v])
              | HexBad c2 => (NNone, [EValue (cbyte c2)], c2)
              | HexEnd => (NPanic, [], c1)
              end
            else submit_error EValue (next_if_any c1)
          else if cbyte c1 =? 43 then query_value fuel' c1 name (value1 ++ [32])
          else if (cbyte c1 =? 38) || (cbyte c1 =? 59) then submit_name_value name value1 c1
          else submit_error EValue c1
      end
  end.

(* QueryIterator::next, the name loop, /repo/src/util/query.rs:168-237,
   followed by the value loop.  (The enclosing loop of query.rs:166 is never
   repeated, because the value loop is only left by return.) *)
Fixpoint query_name (fuel : nat) (c : ctx) (name : list byte) : outcome :=
  match fuel with
  | O => (NFuel, [], c)
  | S fuel' =>
      match collect_visible_7bit
              (fun b => (b =? 37) || (b =? 43) || (b =? 61) || (b =? 38) || (b =? 59))
              (bs_mark c) with
      | CPanic c1 => (NPanic, [], c1)
      | CEos c1 =>
          submit_name
            (if (0 <? bs_slice_length c1)%nat then name ++ bs_slice c1 else name) c1
      | CStop c1 =>
          let name1 := if (1 <? bs_slice_length c1)%nat
                       then name ++ bs_slice_ignore c1 else name in
          if cbyte c1 =? 37 then
            if bs_has_bytes c1 2 then
              match collect_hex8 c1 with
              | HexOk v c2 => submit_error EName c2
              | HexBad c2 => (NNone, [EName (cbyte c2)], c2)
              | HexEnd => (NPanic, [], c1)
              end
            else submit_error EName (next_if_any c1)
          else if cbyte c1 =? 43 then query_name fuel' c1 (name1 ++ [32])
          else if cbyte c1 =? 61 then
            if (cindex c1 =? 1)%nat then submit_error EName c1
            else query_value fuel' c1 name1 []
          else if (cindex c1 =? 1)%nat then submit_error EName c1
          else if (cbyte c1 =? 38) || (cbyte c1 =? 59) then submit_name name1 c1
          else submit_error EName c1
      end
  end.

(* QueryIterator::next, /repo/src/util/query.rs:158-300.  The argument is the
   state of the iterator; QueryIterator::new, query.rs:132-139, is bs_new. *)
Definition query_next (c : ctx) : outcome :=
  if (bs_available c =? 0)%nat then (NNone, [], c)
  else query_name (S (bs_available c)) c [].

(* The quoted-value loop of FieldIterator::next, /repo/src/util/field.rs:218-270 *)
Fixpoint field_quoted (fuel : nat) (d : byte) (c : ctx) (name value : list byte) : outcome :=
  match fuel with
  | O => (NFuel, [], c)
  | S fuel' =>
      match collect_quoted_field (bs_mark c) with
      | CPanic c1 => (NPanic, [], c1)
      | CEos c1 => submit_error EValue c1
      | CStop c1 =>
          if cbyte c1 =? 34 then
            let value1 := value ++ bs_slice_ignore c1 in
            match consume_linear_space c1 with
            | CPanic c2 => (NPanic, [], c2)
            | CEos c2 => submit_name_value name value1 c2
            | CStop c2 =>
                match bs_next c2 with
                | None => submit_name_value name value1 c2      (* bs_available! == 0 *)
                | Some c3 =>
                    if cbyte c3 =? d then submit_name_value name value1 c3
                    else submit_error EValue c3
                end
            end
          else if cbyte c1 =? 92 then
            match bs_next c1 with
            | None => submit_error EName c1                     (* bs_is_eos! *)
            | Some c2 =>
                field_quoted fuel' d c2 name ((value ++ bs_slice_ignore c1) ++ [cbyte c2])
            end
          else submit_error EValue c1
      end
  end.

(* The unquoted value, /repo/src/util/field.rs:271-306 *)
Definition field_unquoted (d : byte) (c : ctx) (name : list byte) : outcome :=
  match collect_field (fun b => b =? d) (bs_mark (bs_replay c)) with
  | CPanic c1 => (NPanic, [], c1)
  | CEos c1 =>
      submit_name_value name (if (0 <? bs_slice_length c1)%nat then bs_slice c1 else []) c1
  | CStop c1 =>
      if (bs_slice_length c1 =? 0)%nat then submit_name name c1
      else if cbyte c1 =? d then submit_name_value name (bs_slice_ignore c1) c1
      else submit_error EValue c1
  end.

(* The arm for '=' of FieldIterator::next, /repo/src/util/field.rs:208-307 *)
Definition field_value (fuel : nat) (d : byte) (c : ctx) (name : list byte) : outcome :=
  match consume_linear_space c with
  | CPanic c1 => (NPanic, [], c1)
  | CEos c1 => submit_name name c1
  | CStop c1 =>
      if cbyte c1 =? 34 then field_quoted fuel d c1 name []
      else field_unquoted d c1 name
  end.

(* The loop of FieldIterator::next, /repo/src/util/field.rs:172-328 *)
Fixpoint field_name (fuel : nat) (d : byte) (normalize : bool) (c : ctx)
         (name : list byte) : outcome :=
  match fuel with
  | O => (NFuel, [], c)
  | S fuel' =>
      match consume_linear_space c with
      | CPanic c1 => (NPanic, [], c1)
      | CEos c1 => (NNone, [], c1)
      | CStop c1 =>
          match collect_tokens
                  (fun b => (b =? 61) || (b =? d) || (b =? 47) || (normalize && is_upper b))
                  (bs_mark (bs_replay c1)) with
          | CPanic c2 => (NPanic, [], c2)
          | CEos c2 =>
              submit_name
                (if (0 <? bs_slice_length c2)%nat then name ++ bs_slice c2 else name) c2
          | CStop c2 =>
              let name1 := name ++ bs_slice_ignore c2 in
              if cbyte c2 =? 61 then field_value fuel' d c2 name1
              else if cbyte c2 =? 47 then field_name fuel' d normalize c2 (name1 ++ [47])
              else if cbyte c2 =? d then submit_name name1 c2
              else if is_upper (cbyte c2) then
                field_name fuel' d normalize c2 (name1 ++ [cbyte c2 + 32])
              else submit_error EName c2
          end
      end
  end.

(* FieldIterator::next, /repo/src/util/field.rs:164-329, for an iterator with
   the given delimiter and normalize flag; FieldIterator::new, field.rs:136-145,
   is bs_new. *)
Definition field_next (d : byte) (normalize : bool) (c : ctx) : outcome :=
  if (bs_available c =? 0)%nat then (NNone, [], c)
  else field_name (S (bs_available c)) d normalize c [].

(* A for loop over an iterator (core::iter): next() is called until it does not
   return Some.  Returns the items, the errors passed to on_error and the final
   result; at most fuel items. *)
Fixpoint iterate (next : ctx -> outcome) (fuel : nat) (c : ctx)
  : list (list byte * option (list byte)) * list iter_error * next_result :=
  match fuel with
  | O => ([], [], NFuel)
  | S fuel' =>
      match next c with
      | (NItem n v, e, c') =>
          let '(items, errs, r) := iterate next fuel' c' in ((n, v) :: items, e ++ errs, r)
      | (r, e, _) => ([], e, r)
      end
  end.

(* for (name, value) in QueryIterator::new(query), see iterate *)
Definition query_all (query : list byte) :=
  iterate query_next (S (length query)) (bs_new query).

(* for (name, value) in FieldIterator::new(field, d, normalize), see iterate *)
Definition field_all (field : list byte) (d : byte) (normalize : bool) :=
  iterate (field_next d normalize) (S (length field)) (bs_new field).
