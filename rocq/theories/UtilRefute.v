(* Witnesses for PropsUtilRefuted.v. *)

From Coq Require Import NArith List Bool Arith Lia String.
From Verif Require Import Bytes ByteStream UtilModel UtilSpec UtilFacts UtilIter UtilSamples.
Import ListNotations.
Local Open Scope N_scope.
Local Open Scope list_scope.

Lemma ff_not_utf8 : ~ Utf8 [255].
Proof. intros H. apply utf8_head in H. lia. Qed.

Ltac octets_now := unfold octets; cbn; repeat constructor; lia.

Lemma decode_not_utf8 : exists t d, octets t /\ decode t = DOk d /\ ~ Utf8 d.
Proof.
  exists (bs "%FF"), [255]. split; [octets_now|]. split; [vm_compute; reflexivity|exact ff_not_utf8].
Qed.

Lemma query_not_utf8 : exists t n v, octets t /\
  query_all t = ([(n, Some v)], [], NNone) /\ ~ Utf8 v.
Proof.
  exists (bs "a=%ff"), (bs "a"), [255].
  split; [octets_now|]. split; [vm_compute; reflexivity|exact ff_not_utf8].
Qed.

Lemma field_not_utf8 : exists t n v, octets t /\
  field_all t 59 false = ([(n, Some v)], [], NNone) /\ ~ Utf8 v.
Proof.
  exists (bs "a=" ++ [254]), (bs "a"), [254].
  split; [octets_now|]. split; [vm_compute; reflexivity|].
  intros H. apply utf8_head in H. lia.
Qed.

Lemma query_name_not_decoded : exists t,
  t = bs "field%201=value%201&field%202=value%202&field%203" /\
  Encodes (bs "field%201") (bs "field 1") /\ query_all t = ([], [EName 48], NNone).
Proof.
  eexists. split; [reflexivity|]. split; [|vm_compute; reflexivity].
  apply decode_ok. vm_compute. reflexivity.
Qed.

Lemma query_not_fused : exists t e c' n v e' c'',
  query_next (bs_new t) = (NNone, e, c') /\ query_next c' = (NItem n v, e', c'').
Proof.
  exists (bs "a=%zz&b"), [EValue 122], (Ctx 122 2 (bs "%z") (bs "z&b")), (bs "z"), None, [],
    (Ctx 38 4 (bs "z&") (bs "b")).
  split; vm_compute; reflexivity.
Qed.

Lemma quoted_not_anywhere : exists t items, FExpected false 59 t items /\
  field_all t 59 false = ([], [EValue 99], NNone) /\ items <> [].
Proof.
  do 2 eexists. split; [exact sample_expected|]. split; [vm_compute; reflexivity|discriminate].
Qed.

Lemma last_name_lost : exists n, plain_name 59 n /\ n <> [] /\
  field_all (bs "a; " ++ n) 59 true = ([(bs "a", None)], [], NNone).
Proof.
  exists (bs "deflatE"). split; [now apply name_check|]. split; [discriminate|]. vm_compute. reflexivity.
Qed.

Lemma last_slash_lost : exists n, plain_name 59 n /\ n <> [] /\
  field_all (bs "a; " ++ n) 59 false = ([(bs "a", None)], [], NNone).
Proof.
  exists (bs "text/"). split; [now apply name_check|]. split; [discriminate|]. vm_compute. reflexivity.
Qed.

Lemma quoted_garbage : exists b, ~ ws b /\ b <> 59 /\
  field_all (bs "a=""b""" ++ [b]) 59 false = ([(bs "a", Some (bs "b"))], [], NNone).
Proof.
  exists 120. split; [unfold ws; lia|]. split; [lia|]. vm_compute. reflexivity.
Qed.

Lemma field_panics : exists t, octets t /\ field_all t 59 false = ([], [], NPanic).
Proof.
  exists [97; 255]. split; [octets_now|]. vm_compute. reflexivity.
Qed.
