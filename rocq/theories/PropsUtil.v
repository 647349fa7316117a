(* Utilities: decode, QueryIterator, FieldIterator: C44 - C51, C54, C55.
   Vocabulary: UtilSpec.v. *)

From Coq Require Import NArith List Bool Arith String.
From Verif Require Import Bytes ByteStream UtilModel UtilSpec UtilFacts UtilFields UtilIter UtilSamples.
Import ListNotations.
Local Open Scope N_scope.
Local Open Scope list_scope.

(* C44.  decode succeeds with d exactly on the encodings of d. *)
Theorem C44_decode_exact : forall t d, decode t = DOk d <-> Encodes t d.
Proof. exact decode_ok. Qed.
Print Assumptions C44_decode_exact.

Example C44_case : decode (bs "a%2Fb+%c3%A9~") = DOk [97; 47; 98; 32; 195; 169; 126].
Proof. exact (proj2 (C44_decode_exact _ _) sample_encodes). Qed.

(* C44.  Every byte string survives percent-encoding, whatever the case of the
   digits. *)
Theorem C44_round_trip : forall f d, octets d -> decode (percent_encode f d) = DOk d.
Proof. exact decode_percent. Qed.
Print Assumptions C44_round_trip.

Example C44_round_case :
  percent_encode Nat.even [0; 255; 43; 171] = bs "%00%Ff%2b%Ab" /\
  decode (percent_encode Nat.even [0; 255; 43; 171]) = DOk [0; 255; 43; 171].
Proof. split; vm_compute; reflexivity. Qed.

(* C45.  decode fails exactly when, after a correctly encoded beginning, the
   text has a problem, and reports that problem. *)
Theorem C45_first_problem : forall t e, decode t = DErr e <->
  exists p d r, t = p ++ r /\ Encodes p d /\ DecodeProblem r e.
Proof. exact decode_err. Qed.
Print Assumptions C45_first_problem.

Example C45_case : decode (bs "a%2Fb+%c3%A9~" ++ bs "%2Gx") = DErr (DHexSequence 71).
Proof.
  apply C45_first_problem. do 3 eexists. split; [reflexivity|].
  split; [exact sample_encodes|exact sample_problem].
Qed.

(* C45.  decode fails exactly when some byte is not visible or some '%' is not
   followed by two digits. *)
Theorem C45_fails_exactly : forall t,
  (exists e, decode t = DErr e) <-> exists a r, t = a ++ r /\ malformed r.
Proof. exact decode_fails. Qed.
Print Assumptions C45_fails_exactly.

Example C45_fails_case : malformed [200; 65] /\ decode [65; 200; 65] = DErr (DByte 200).
Proof. split; [left; unfold visible; intros [_ H]; now apply H|vm_compute; reflexivity]. Qed.

(* C45.  decode terminates and never panics: it succeeds or fails. *)
Theorem C45_total : forall t, (exists d, decode t = DOk d) \/ (exists e, decode t = DErr e).
Proof. exact decode_defined. Qed.
Print Assumptions C45_total.

Example C45_total_case : decode (bs "%") = DErr (DHexSequence 37) /\ decode [] = DOk [].
Proof. split; vm_compute; reflexivity. Qed.

(* C46.  Without '%' the result is valid UTF-8 (it is ASCII). *)
Theorem C46_plain_utf8 : forall t d, decode t = DOk d -> ~ In 37 t -> Utf8 d.
Proof. exact plain_utf8. Qed.
Print Assumptions C46_plain_utf8.

Example C46_plain_case : decode (bs "a+b") = DOk (bs "a b") /\ ~ In 37 (bs "a+b") /\ Utf8 (bs "a b").
Proof.
  assert (H : decode (bs "a+b") = DOk (bs "a b")) by (vm_compute; reflexivity).
  assert (N : ~ In 37 (bs "a+b")) by (cbn; intuition discriminate).
  split; [exact H|]. split; [exact N|]. exact (C46_plain_utf8 _ _ H N).
Qed.

(* C46.  With '%' every byte string is the content of some String returned by
   decode. *)
Theorem C46_any_bytes : forall d, octets d -> exists t, decode t = DOk d.
Proof. exact every_string. Qed.
Print Assumptions C46_any_bytes.

Example C46_any_case : decode (bs "%C0%80") = DOk [192; 128].
Proof. vm_compute. reflexivity. Qed.

(* C47.  A for loop over a QueryIterator yields the items without an error
   exactly for the renderings of these items. *)
Theorem C47_query_exact : forall t items,
  query_all t = (items, [], NNone) <-> Query t items /\ query_start t.
Proof. exact query_clean. Qed.
Print Assumptions C47_query_exact.

Example C47_case : query_all (bs "a=b%20c&d;+e=f=g") =
  ([(bs "a", Some (bs "b c")); (bs "d", None); (bs " e", Some (bs "f=g"))], [], NNone).
Proof.
  apply C47_query_exact. split; [exact sample_query|].
  split; [discriminate|]. intros [H|H]; discriminate.
Qed.

(* C48.  Every escape in a name ends the iteration with an error. *)
Theorem C48_name_escape_fails : forall t n h l vh vl r,
  QName t n -> HexDigit h vh -> HexDigit l vl ->
  query_all (t ++ 37 :: h :: l :: r) = ([], [EName l], NNone).
Proof. exact query_name_escape. Qed.
Print Assumptions C48_name_escape_fails.

Example C48_case : QName (bs "field") (bs "field") /\ HexDigit 50 2 /\ HexDigit 48 0 /\
  query_all (bs "field" ++ 37 :: 50 :: 48 :: bs "1=x") = ([], [EName 48], NNone).
Proof.
  split; [now apply qname_check|]. split; [now left|]. split; [now left|]. vm_compute. reflexivity.
Qed.

(* C49.  A call of QueryIterator::next terminates without a panic; if it yields
   an item it has consumed input and not called on_error. *)
Theorem C49_query_call : forall c, exists r e c', query_next c = (r, e, c') /\
  r <> NPanic /\ r <> NFuel /\ (List.length (crest c') <= List.length (crest c))%nat /\
  (forall n v, r = NItem n v -> (List.length (crest c') < List.length (crest c))%nat /\ e = []).
Proof. exact query_call. Qed.
Print Assumptions C49_query_call.

Example C49_query_call_case :
  let '(r, e, c') := query_next (bs_new (bs "a&b")) in
  r = NItem (bs "a") None /\ e = [] /\ crest c' = bs "b".
Proof. vm_compute. repeat split; reflexivity. Qed.

(* C49.  A for loop over a QueryIterator ends, after at most as many items as
   the query has bytes and at most one error. *)
Theorem C49_query_ends : forall t, exists items e, query_all t = (items, e, NNone) /\
  (List.length items <= List.length t)%nat /\ (List.length e <= 1)%nat.
Proof. exact query_bounded. Qed.
Print Assumptions C49_query_ends.

Example C49_query_ends_case :
  query_all (bs "a&&=&b=%") = ([(bs "a", None); ([], None); ([], Some [])], [EValue 37], NNone).
Proof. vm_compute. reflexivity. Qed.

(* C49.  At the end of the input every further call returns None and changes
   nothing. *)
Theorem C49_query_end : forall c, crest c = [] -> query_next c = (NNone, [], c).
Proof. exact query_end. Qed.
Print Assumptions C49_query_end.

Example C49_query_end_case :
  let '(_, _, c') := query_next (bs_new (bs "a")) in crest c' = [] /\ query_next c' = (NNone, [], c').
Proof. vm_compute. split; reflexivity. Qed.

(* C49.  A call of FieldIterator::next terminates; an item consumes input; None
   is only returned at the end of the input - whatever the delimiter. *)
Theorem C49_field_call : forall norm d c, exists r e c', field_next d norm c = (r, e, c') /\
  r <> NFuel /\ (r = NNone -> crest c' = []) /\
  (forall n v, r = NItem n v -> (List.length (crest c') < List.length (crest c))%nat /\ e = []).
Proof. exact field_call. Qed.
Print Assumptions C49_field_call.

Example C49_field_call_case :
  let '(r, e, c') := field_next 59 false (bs_new (bs "a@;b")) in
  r = NNone /\ e = [EName 64] /\ crest c' = [].
Proof. vm_compute. repeat split; reflexivity. Qed.

(* C49.  A for loop over a FieldIterator ends. *)
Theorem C49_field_ends : forall norm d t, exists items e r, field_all t d norm = (items, e, r) /\
  (r = NNone \/ r = NPanic) /\ (List.length items <= List.length t)%nat.
Proof. exact field_bounded. Qed.
Print Assumptions C49_field_ends.

Example C49_field_ends_case :
  field_all (bs ";;a=") 59 false = ([([], None); ([], None); (bs "a", None)], [], NNone).
Proof. vm_compute. reflexivity. Qed.

(* C49.  After the end of the input None for ever. *)
Theorem C49_field_end : forall norm d c, crest c = [] -> field_next d norm c = (NNone, [], c).
Proof. exact field_end. Qed.
Print Assumptions C49_field_end.

Example C49_field_end_case :
  let '(_, _, c') := field_next 59 false (bs_new (bs "a=@;b")) in
  let '(_, _, c'') := field_next 59 false c' in
  crest c'' = [] /\ field_next 59 false c'' = (NNone, [], c'').
Proof. vm_compute. split; reflexivity. Qed.

(* C50.  Fields separated by a delimiter and white space, of which the last may
   have a quoted value, are yielded in order, with lower-case names when
   normalising. *)
Theorem C50_fields : forall norm d t items, delimiter d -> Fields norm d t items ->
  field_all t d norm = (items, [], NNone).
Proof. exact fields_all. Qed.
Print Assumptions C50_fields.

Example C50_case : field_all (bs "text/HTML; Charset=utf-8;	Q= ""a\""b"" ") 59 true =
  ([(bs "text/html", None); (bs "charset", Some (bs "utf-8")); (bs "q", Some (bs "a""b"))], [], NNone).
Proof. exact (C50_fields true 59 _ _ semicolon_delimiter sample_fields). Qed.

(* C51.  In the last position any byte string, quoted, is given back. *)
Theorem C51_quoted_last : forall norm d n v, plain_name d n ->
  field_all (n ++ 61 :: 34 :: quote v ++ [34]) d norm = ([(map (lower norm) n, Some v)], [], NNone).
Proof. exact quoted_any. Qed.
Print Assumptions C51_quoted_last.

Example C51_case :
  plain_name 59 (bs "Name") /\
  field_all (bs "Name" ++ 61 :: 34 :: quote [34; 92; 0; 255; 59] ++ [34]) 59 true =
  ([(bs "name", Some [34; 92; 0; 255; 59])], [], NNone).
Proof.
  split; [now apply name_check|]. vm_compute. reflexivity.
Qed.

(* C54.  What one call of QueryIterator::next does, for every input. *)
Theorem C54_query_step : forall c r e rest,
  QueryStep (cindex c =? 0)%nat (crest c) r e rest ->
  exists c', query_next c = (r, e, c') /\ crest c' = rest /\
    (cindex c' + List.length rest = cindex c + List.length (crest c))%nat.
Proof. exact query_next_spec. Qed.
Print Assumptions C54_query_step.

Example C54_step_case :
  QueryStep (cindex (bs_new (bs "ab&c")) =? 0)%nat (crest (bs_new (bs "ab&c"))) (NItem (bs "ab") None) [] (bs "c") /\
  query_next (bs_new (bs "ab&c")) = (NItem (bs "ab") None, [], Ctx 38 0 (bs "ab&") (bs "c")).
Proof.
  split; [|vm_compute; reflexivity].
  apply (qs_name_sep true (bs "ab") (bs "ab") 38 (bs "c")); [now apply qname_check|now left|discriminate].
Qed.

Theorem C54_query_step_total : forall c, exists r e c', query_next c = (r, e, c') /\
  QueryStep (cindex c =? 0)%nat (crest c) r e (crest c').
Proof. exact query_next_step. Qed.
Print Assumptions C54_query_step_total.

Example C54_step_total_case : query_next (bs_new (bs "&a")) = (NNone, [EName 38], Ctx 38 0 (bs "&a") []).
Proof. vm_compute. reflexivity. Qed.

(* C54.  What a for loop over a QueryIterator does, for every input. *)
Theorem C54_query_all : forall t items e r,
  query_all t = (items, e, r) <-> Runs QueryStep true t items e r.
Proof. exact query_all_runs. Qed.
Print Assumptions C54_query_all.

Example C54_case :
  query_all (bs "a=%4x") = ([], [EValue 120], NNone) /\
  Runs QueryStep true (bs "a=%4x") [] [EValue 120] NNone.
Proof.
  assert (H : query_all (bs "a=%4x") = ([], [EValue 120], NNone)) by (vm_compute; reflexivity).
  split; [exact H|]. now apply C54_query_all.
Qed.

(* C55.  What one call of FieldIterator::next does, for every input and every
   delimiter. *)
Theorem C55_field_step : forall norm d c r e rest,
  FieldStep norm d (crest c) r e rest ->
  exists c', field_next d norm c = (r, e, c') /\ (r <> NPanic -> crest c' = rest).
Proof. exact field_next_spec. Qed.
Print Assumptions C55_field_step.

Example C55_step_case :
  FieldStep false 44 (bs "gzip, br") (NItem (bs "gzip") None) [] (bs " br") /\
  field_next 44 false (bs_new (bs "gzip, br")) = (NItem (bs "gzip") None, [], Ctx 44 0 (bs "gzip,") (bs " br")).
Proof.
  split; [|vm_compute; reflexivity].
  apply (fs_name_delim false 44 (bs "gzip") (bs "gzip") false (bs " br")); [|exact comma_ends].
  apply (fname_plain false 44 [] (Forall_nil _) (bs "gzip")). now apply name_check.
Qed.

Theorem C55_field_step_total : forall norm d t, octets t ->
  exists r e rest, FieldStep norm d t r e rest.
Proof. exact field_total. Qed.
Print Assumptions C55_field_step_total.

Example C55_step_total_case : field_next 44 false (bs_new (bs "a b")) = (NNone, [EName 32], Ctx 32 0 (bs "a b") []).
Proof. vm_compute. reflexivity. Qed.

(* C55.  What a for loop over a FieldIterator does, for every input. *)
Theorem C55_field_all : forall norm d t items e r, octets t ->
  (field_all t d norm = (items, e, r) <-> Runs (fun _ => FieldStep norm d) true t items e r).
Proof. exact field_all_runs. Qed.
Print Assumptions C55_field_all.

Example C55_all_case :
  Runs (fun _ => FieldStep false 59) true (bs "a=b; c") [(bs "a", Some (bs "b")); (bs "c", None)] [] NNone.
Proof.
  apply C55_field_all; [unfold octets; cbn; repeat constructor|].
  vm_compute. reflexivity.
Qed.

(* C55.  It panics only on the byte 255. *)
Theorem C55_no_panic : forall norm d t, Forall (fun b => b < 255) t ->
  exists items e, field_all t d norm = (items, e, NNone).
Proof. exact field_no_panic. Qed.
Print Assumptions C55_no_panic.

Example C55_case :
  field_all (bs "a; b=c x d") 44 false = ([], [EName 59], NNone) /\
  field_all (bs "a; b=""c") 59 false = ([(bs "a", None)], [EValue 99], NNone) /\
  field_all (bs "a; b=""c\") 59 false = ([(bs "a", None)], [EName 92], NNone) /\
  field_all (bs "a; b=""c"" x;d") 59 false = ([(bs "a", None); (bs "b", Some (bs "c")); (bs "d", None)], [], NNone).
Proof. vm_compute. repeat split; reflexivity. Qed.

(* Delimiters with a meaning of their own. *)
Example C55_delimiter_case :
  field_all (bs "a=b=c") 61 false = ([(bs "a", Some (bs "b")); (bs "c", None)], [], NNone) /\
  field_all (bs "a/b=c/d") 47 false = ([(bs "a/b", Some (bs "c")); (bs "d", None)], [], NNone) /\
  field_all (bs "a b= c d") 32 false = ([(bs "a", None); (bs "b", Some (bs "c")); (bs "d", None)], [], NNone) /\
  field_all (bs "a""b=c""d") 34 false = ([(bs "a", None); (bs "b", Some (bs "c")); (bs "d", None)], [], NNone).
Proof. vm_compute. repeat split; reflexivity. Qed.
