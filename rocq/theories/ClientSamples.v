(* Responses for the examples of C87. *)

From Coq Require Import NArith List Bool Arith String Lia.
From Verif Require Import Bytes Http1Model Http1Spec Http1Wire Http1Program UtilModel UtilSpec UtilFields UtilIter FormSpec ClientSpec.
Import ListNotations.
Local Open Scope N_scope.
Local Open Scope list_scope.

Definition a_continue : answer := (Response [] (bs "1", bs "1") (bs "100") (bs "Continue") [], None).
Definition a_page : answer :=
  (Response crlf (bs "1", bs "1") (bs "200") (bs "OK") [Header (bs "TRANSFER-Encoding") [32] (bs "gzip, Chunked") []; Header (bs "Etag") [] (bs "y") []],
   Some ([Chunk (bs "3") [Ext [] (bs "k") None] (bs "one"); Chunk (bs "A") [] (crlf ++ bs "HTTP/ " ++ [0; 255])],
         [Header (bs "Sum") [32] (bs "13") []])).
Definition three_responses : list answer := [a_continue; a_page; a_continue].

Lemma a_continue_ok : wf_answer a_continue.
Proof.
  split; [|reflexivity].
  unfold wf_response, wf_version, blank, Http1Wire.digit, a_continue. cbn [fst snd r_blank r_version r_code r_reason r_headers].
  repeat first [split | discriminate | reflexivity | apply Forall_nil | apply Forall_cons | lia | cbn; lia].
Qed.

Lemma a_page_ok : wf_answer a_page.
Proof.
  split.
  { unfold wf_response, wf_version, wf_header, blank, Http1Wire.digit, a_page. cbn [fst snd r_blank r_version r_code r_reason r_headers].
    repeat first [split | discriminate | reflexivity | apply Forall_nil | apply Forall_cons | lia | cbn; lia]. }
  cbn [snd a_page]. split; [|split].
  - unfold wf_chunk, wf_ext, hexdigit. cbn.
    repeat first [split | discriminate | reflexivity | apply Forall_nil | apply Forall_cons | lia | cbn; lia].
  - unfold wf_header. cbn. repeat first [split | discriminate | reflexivity | apply Forall_nil | apply Forall_cons | lia | cbn; lia].
  - exists (bs "gzip" ++ 44 :: ([32] ++ bs "Chunked")), [(bs "gzip", None)], None. split; [reflexivity|].
    apply (f_cons true 44 (bs "gzip") (bs "gzip", None)).
    + apply (ff_name true 44 [] (bs "gzip")); [constructor|]. now apply name_check.
    + apply f_last. apply (fl_name true 44 [32] (bs "Chunked")).
      * repeat constructor.
      * now apply name_check.
      * split; [discriminate|]. split; [discriminate|]. intros [_ U]. unfold upper in U. cbn in U. lia.
Qed.

(* RFC 7230, 3.1.2: reason-phrase = *( HTAB / SP / VCHAR / obs-text ), which may be
   empty. *)
Definition reason_phrase (r : list byte) : Prop :=
  Forall (fun b : byte => b = 9 \/ 32 <= b <= 126 \/ 128 <= b <= 255) r.

Lemma no_reason : exists r1 r2,
  r1 = [] /\ r2 <> [] /\ reason_phrase r1 /\ reason_phrase r2 /\
  (let '(_, _, _, o) := feed yes (init_head new) [render_response (Response [] (bs "1", bs "1") (bs "200") r1 [])] in
   o = OError (ErStatus 13)) /\
  (let '(_, _, _, o) := feed yes (init_head new) [render_response (Response [] (bs "1", bs "1") (bs "200") r2 [])] in
   o = OError (ErStatus 9)).
Proof.
  exists [], [79; 9; 75]. split; [reflexivity|]. split; [discriminate|]. split; [constructor|].
  split; [|vm_compute; split; reflexivity].
  apply Forall_cons; [lia|]. apply Forall_cons; [lia|]. apply Forall_cons; [lia|]. constructor.
Qed.
