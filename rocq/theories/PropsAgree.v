(* C73: the URL-encoded body parser, QueryIterator and decode give the same text the
   same meaning, and where they do not. *)

From Coq Require Import NArith List Bool Arith String.
From Verif Require Import Bytes ByteStream Http1Model Http1Spec Http1Wire Http1Reader.
From Verif Require Import UtilModel UtilSpec Agree AgreeFacts AgreeSamples.
Import ListNotations.
Local Open Scope N_scope.
Local Open Scope list_scope.

(* A URL-encoded body of as many bytes as t is long, cut in any way and under any pausing
   callbacks, against a loop over QueryIterator::new(t): the parser reports the pairs of
   the iterator, or fails with the error and at the byte of the iterator, after having
   reported the same pairs. *)
Theorem C73_body_is_query : forall h q t tail segs,
  query_start t -> escapes_in_values t -> segs <> [] -> List.concat segs = t ++ tail ->
  let '(p', log, rest, o) := feed h (set_length (init_url_encoded q) (N.of_nat (List.length t))) segs in
  match query_all t with
  | (items, [], NNone) => o = OFinished /\ rest = tail /\ flat log = seen_pairs items
  | (items, [EName b], NNone) => o = OError (ErUrlEncodedName b) /\
      exists n, nearly (flat log) (flat_map seen_pair items ++ seen_pair (n, None))
  | (items, [EValue b], NNone) => o = OError (ErUrlEncodedValue b) /\
      exists n v, nearly (flat log) (flat_map seen_pair items ++ seen_pair (n, Some v))
  | _ => False
  end.
Proof. exact body_is_query. Qed.
Print Assumptions C73_body_is_query.

(* The value that QueryIterator gives is what decode gives, and it fails at the byte that
   decode names. *)
Theorem C73_query_is_decode : forall t n u,
  decode t = DOk n -> t <> [] -> without (bs "%=&;") t -> without (bs "&;") u ->
  query_all (t ++ 61 :: u) =
  match decode u with
  | DOk v => ([(n, Some v)], [], NNone)
  | DErr e => ([], [EValue (named e)], NNone)
  | _ => ([], [], NPanic)
  end.
Proof. exact query_is_decode. Qed.
Print Assumptions C73_query_is_decode.

(* The name and the value that the parser reports are what decode gives, and it fails at
   the byte that decode names. *)
Theorem C73_body_is_decode : forall h q t u tail segs,
  without (bs "=&;") t -> without (bs "&;") u -> whole_escapes t -> whole_escapes u ->
  segs <> [] -> List.concat segs = t ++ 61 :: u ++ tail ->
  let '(p', log, rest, o) :=
    feed h (set_length (init_url_encoded q) (N.of_nat (List.length (t ++ 61 :: u)))) segs in
  match decode t, decode u with
  | DOk n, DOk v => o = OFinished /\ rest = tail /\ flat log = seen_pairs [(n, Some v)]
  | DOk n, DErr e => o = OError (ErUrlEncodedValue (named e)) /\
      exists v, nearly (flat log) (seen_pair (n, Some v))
  | DErr e, _ => o = OError (ErUrlEncodedName (named e)) /\
      exists n, nearly (flat log) (seen_pair (n, None))
  | _, _ => False
  end.
Proof. exact body_is_decode. Qed.
Print Assumptions C73_body_is_decode.

(* Without the conditions the parser and the iterator differ: on an escape in a name,
   on an escape cut off by the end, and on an empty first name. *)
Theorem C73_unconditional_refuted : exists h q t1 t2 t3,
  (forall t, In t [t1; t2; t3] ->
     let '(p', log, rest, o) := feed h (set_length (init_url_encoded q) (N.of_nat (List.length t))) [t] in
     o = OFinished) /\
  query_start t1 /\ whole_escapes t1 /\ query_all t1 = ([], [EName 49], NNone) /\
  query_start t2 /\ query_all t2 = ([], [EValue 52], NNone) /\
  whole_escapes t3 /\ query_all t3 = ([], [EName 61], NNone).
Proof. exact unconditional_refuted. Qed.
Print Assumptions C73_unconditional_refuted.

(* ------------------------------------------------------------- examples *)

(* "a=%4a+b&c;d==" in two pieces, followed by other bytes *)
Example C73_body_is_query_ex :
  let t := bs "a=%4a+b&c;d==" in
  let segs := [bs "a=%4"; bs "a+b&c;d==GET"] in
  query_start t /\ escapes_in_values t /\ List.concat segs = t ++ bs "GET" /\
  query_all t = ([(bs "a", Some (bs "J b")); (bs "c", None); (bs "d", Some (bs "="))], [], NNone) /\
  let '(p', log, rest, o) := feed pause_always (set_length (init_url_encoded new) 13) segs in
  o = OFinished /\ rest = bs "GET" /\
  flat log = seen_pairs [(bs "a", Some (bs "J b")); (bs "c", None); (bs "d", Some (bs "="))].
Proof.
  cbv zeta. split; [|split; [|vm_compute; auto]].
  - split; [discriminate|]. intros [H|H]; discriminate.
  - exact escapes_sample.
Qed.

Example C73_body_is_query_ex_error :
  let t := bs "a=b&c=%4x" in
  query_start t /\ escapes_in_values t /\
  query_all t = ([(bs "a", Some (bs "b"))], [EValue 120], NNone) /\
  let '(p', log, rest, o) := feed keep_going (set_length (init_url_encoded new) 9) [t] in
  o = OError (ErUrlEncodedValue 120).
Proof.
  cbv zeta. split; [|split; [|vm_compute; auto]].
  - split; [discriminate|]. intros [H|H]; discriminate.
  - exact escapes_sample_error.
Qed.

Example C73_query_is_decode_ex :
  decode (bs "a+b") = DOk (bs "a b") /\ without (bs "%=&;") (bs "a+b") /\ without (bs "&;") (bs "%41=+") /\
  query_all (bs "a+b" ++ 61 :: bs "%41=+") = ([(bs "a b", Some (bs "A= "))], [], NNone).
Proof.
  split; [reflexivity|]. split; [|split; [|reflexivity]]; intros b I J; cbn in I, J;
    repeat match goal with H : _ \/ _ |- _ => destruct H end; subst; (discriminate || contradiction).
Qed.

Example C73_body_is_decode_ex :
  without (bs "=&;") (bs "%41+") /\ whole_escapes (bs "%41+") /\
  decode (bs "%41+") = DOk (bs "A ") /\ decode (bs "b") = DOk (bs "b") /\
  let '(p', log, rest, o) := feed pause_always (set_length (init_url_encoded new) 6) [bs "%4"; bs "1+=b."] in
  o = OFinished /\ rest = bs "." /\ flat log = seen_pairs [(bs "A ", Some (bs "b"))].
Proof.
  split; [|split; [exact whole_sample|vm_compute; auto]].
  intros b I J; cbn in I, J;
    repeat match goal with H : _ \/ _ |- _ => destruct H end; subst; (discriminate || contradiction).
Qed.
