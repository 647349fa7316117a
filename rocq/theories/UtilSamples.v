(* Concrete instances for the examples of PropsUtil.v and PropsUtilRefuted.v. *)

From Coq Require Import NArith List Bool Arith Lia String.
From Verif Require Import Bytes ByteStream UtilModel UtilSpec UtilFacts UtilIter.
Import ListNotations.
Local Open Scope N_scope.
Local Open Scope list_scope.

Ltac hexd := first [left; reflexivity | right; reflexivity].

Lemma sample_encodes : Encodes (bs "a%2Fb+%c3%A9~") [97; 47; 98; 32; 195; 169; 126].
Proof.
  cbn. apply enc_plain; [unfold visible; lia|lia|lia|].
  apply (enc_hex 50 70 2 15); [hexd|hexd|].
  apply enc_plain; [unfold visible; lia|lia|lia|].
  apply enc_plus.
  apply (enc_hex 99 51 12 3); [hexd|hexd|].
  apply (enc_hex 65 57 10 9); [hexd|hexd|].
  apply enc_plain; [unfold visible; lia|lia|lia|]. constructor.
Qed.

Lemma sample_problem : DecodeProblem (bs "%2Gx") (DHexSequence 71).
Proof.
  cbn. apply dp_hex with [120]. apply (ep_lo 50 71 [120] 2); [hexd|]. now apply hex_digit_none.
Qed.

(* a=b%20c&d;+e=f=g *)
Lemma sample_query : Query (bs "a=b%20c&d;+e=f=g")
  [(bs "a", Some (bs "b c")); (bs "d", None); (bs " e", Some (bs "f=g"))].
Proof.
  apply (q_cons (bs "a=b%20c") (bs "a", Some (bs "b c")) 38 (bs "d;+e=f=g")).
  { apply (qf_pair (bs "a") (bs "a") (bs "b%20c")); [now apply qname_check|].
    cbn. apply qv_plain; [unfold visible; lia|cbn; intuition discriminate|].
    apply (qv_hex 50 48 2 0); [hexd|hexd|]. now apply (qvalue_check (bs "c")). }
  { now left. }
  apply (q_cons (bs "d") (bs "d", None) 59 (bs "+e=f=g")).
  { apply qf_name. now apply qname_check. }
  { now right. }
  apply q_last; [|discriminate].
  apply (qf_pair (bs "+e") (bs " e") (bs "f=g")); [|now apply qvalue_check].
  apply (qn_plus (bs "e") (bs "e")). now apply qname_check.
Qed.

Lemma sample_fields : Fields true 59 (bs "text/HTML; Charset=utf-8;	Q= ""a\""b"" ")
  [(bs "text/html", None); (bs "charset", Some (bs "utf-8")); (bs "q", Some (bs "a""b"))].
Proof.
  apply (f_cons true 59 (bs "text/HTML") (bs "text/html", None)).
  { apply (ff_name true 59 [] (bs "text/HTML")); [constructor|now apply name_check]. }
  apply (f_cons true 59 (bs " Charset=utf-8") (bs "charset", Some (bs "utf-8"))).
  { apply (ff_pair true 59 (bs " ") (bs "Charset") [] (bs "utf-8"));
      [now apply ws_check|now apply name_check|constructor|now apply plain_check|].
    cbn; unfold ws; lia. }
  apply f_last.
  apply (fl_quoted true 59 [9] (bs "Q") (bs " ") (bs "a\""b") (bs "a""b") (bs " "));
    [now apply ws_check|now apply name_check|now apply ws_check| |now apply ws_check].
  cbn. apply fq_plain; [unfold value_byte; lia|lia|]. apply fq_escape.
  apply fq_plain; [unfold value_byte; lia|lia|]. constructor.
Qed.

(* a quoted value before another field *)
Lemma sample_expected : FExpected false 59 (bs "a=""b"";c=d")
  [(bs "a", Some (bs "b")); (bs "c", Some (bs "d"))].
Proof.
  apply (fe_cons false 59 (bs "a=""b""") (bs "a", Some (bs "b")) (bs "c=d")).
  - right. apply (fl_quoted false 59 [] (bs "a") [] (bs "b") (bs "b") []);
      [constructor|now apply name_check|constructor| |constructor].
    cbn. apply fq_plain; [unfold value_byte; lia|lia|constructor].
  - apply fe_last. apply (fl_pair false 59 [] (bs "c") [] (bs "d"));
      [constructor|now apply name_check|constructor|now apply plain_check| |discriminate].
    cbn; unfold ws; lia.
Qed.
