(* Every text is the one described in FormatSpec.v: proofs. *)

From Coq Require Import NArith List Bool String Ascii DecimalString DecimalPos DecimalN DecimalFacts Lia.
From Verif Require Http1Model UtilModel.
From Verif Require Import Bytes Http2Types Http2TypesFacts FormatModel FormatSpec.
Import ListNotations.
Local Open Scope N_scope.
Local Open Scope string_scope.

Lemma number_acc u : forall p, number_after (Npos p) (NilEmpty.string_of_uint u) = Some (Npos (Pos.of_uint_acc u p)).
Proof. induction u; intros p; [reflexivity|..]; (etransitivity; [|apply IHu]); cbn [NilEmpty.string_of_uint number_after];
  (match goal with |- (if ?c then _ else _) = _ => replace c with true by reflexivity end; f_equal; 
   match goal with |- context [N_of_ascii ?c] => let v := eval vm_compute in (N_of_ascii c - 48)%N in change (N_of_ascii c - 48)%N with v end; lia).
Qed.

Lemma number_of u : number_after 0 (NilEmpty.string_of_uint u) = Some (N.of_uint u).
Proof.
  unfold N.of_uint. induction u; [reflexivity| |..].
  1: exact IHu.
  all: apply number_acc.
Qed.

Lemma dec_writes n : writes (dec n) n.
Proof.
  unfold dec. set (u := N.to_uint n).
  assert (U : Decimal.unorm u = u).
  { unfold u. rewrite <- DecimalN.Unsigned.to_of. now rewrite DecimalN.Unsigned.of_to. }
  assert (V : N.of_uint u = n) by apply DecimalN.Unsigned.of_to.
  assert (W : u <> Decimal.Nil). { intros X. rewrite X in U. discriminate U. }
  assert (S : NilZero.string_of_uint u = NilEmpty.string_of_uint u) by (destruct u; [congruence|reflexivity..]).
  rewrite S. repeat split.
  - now rewrite number_of, V.
  - destruct u; [congruence|discriminate..].
  - intros t E. destruct u; try discriminate E. injection E as E.
    assert (X : Decimal.nzhead u = Decimal.Nil \/ Decimal.unorm (Decimal.D0 u) = Decimal.nzhead u).
    { unfold Decimal.unorm. change (Decimal.nzhead (Decimal.D0 u)) with (Decimal.nzhead u).
      destruct (Decimal.nzhead u); auto. }
    destruct X as [X|X].
    + unfold Decimal.unorm in U. change (Decimal.nzhead (Decimal.D0 u)) with (Decimal.nzhead u) in U.
      rewrite X in U. injection U as U. rewrite <- U in E. now rewrite <- E.
    + rewrite X in U. now apply DecimalFacts.nzhead_nonzero in U.
Qed.

Ltac val := eexists; split; [apply dec_writes|reflexivity].

(* A text for every code, by the table. *)
Ltac codes i k :=
  lazymatch k with
  | O => idtac
  | S ?k => destruct (N.eq_dec i (N.of_nat k)) as [->|]; [reflexivity|codes i k]
  end.

Lemma row_out table i : (N.of_nat (List.length table) <= i)%N -> row table i = "Unsupported".
Proof. intros H. unfold row. rewrite (proj2 (nth_error_None table (N.to_nat i))) by lia. reflexivity. Qed.

Lemma eqb_ne a b : a <> b -> (a =? b)%N = false.
Proof. apply N.eqb_neq. Qed.

Lemma frame_type_named b : named "FrameType" (row frame_type_names b) (frame_type_text (frame_type_from_u8 b)).
Proof.
  unfold named. codes b 10%nat.
  rewrite row_out by (cbn [frame_type_names List.length N.of_nat]; cbn in *; lia).
  unfold frame_type_from_u8. repeat rewrite eqb_ne by (cbn in *; assumption). reflexivity.
Qed.

Lemma error_code_named b : named "ErrorCode" (row error_code_names b) (error_code_text (error_code_from_u8 b)).
Proof.
  unfold named. codes b 14%nat.
  rewrite row_out by (cbn [error_code_names List.length N.of_nat]; cbn in *; lia).
  unfold error_code_from_u8. repeat rewrite eqb_ne by (cbn in *; assumption). reflexivity.
Qed.

Lemma setting_valued id v : valued "Setting" (row setting_names id) "" v (setting_text (setting_new id v)).
Proof.
  exists (dec v). split; [apply dec_writes|]. codes id 7%nat.
  rewrite row_out by (cbn [setting_names List.length N.of_nat]; cbn in *; lia).
  unfold setting_new. repeat rewrite eqb_ne by (cbn in *; assumption). reflexivity.
Qed.

Lemma land_bit b k : (N.land b (2 ^ k) =? 2 ^ k)%N = N.testbit b k.
Proof.
  destruct (N.testbit b k) eqn:T.
  - apply N.eqb_eq. apply N.bits_inj. intros i. rewrite N.land_spec, N.pow2_bits_eqb.
    destruct (N.eqb_spec k i) as [<-|]; [now rewrite T|apply andb_false_r].
  - apply N.eqb_neq. intros E. apply (f_equal (fun x => N.testbit x k)) in E.
    rewrite N.land_spec, N.pow2_bits_eqb, N.eqb_refl, T in E. discriminate E.
Qed.

Lemma flags_of b : flags_written b (flags_text (flags_from_u8 b)).
Proof.
  unfold flags_written, flags_text, flags_from_u8. cbn [fl_flags].
  change FL_ACK with (2 ^ 0)%N. change FL_END_HEADERS with (2 ^ 2)%N. change FL_END_STREAM with (2 ^ 0)%N.
  change FL_PADDED with (2 ^ 3)%N. change FL_PRIORITY with (2 ^ 5)%N.
  rewrite !land_bit. reflexivity.
Qed.

Lemma frame_format_of len t f sid : (len < 2 ^ 24)%N -> (t < 256)%N ->
  frame_written len t f sid (frame_format_text (frame_format_new len t f sid)).
Proof.
  intros L T.
  destruct (frame_format_consistent len t f sid T) as (_ & P & K & _ & I). specialize (P L).
  exists (flags_text (flags_from_u8 f)), (frame_type_text (frame_type_from_u8 t)), (dec len), (dec sid).
  split; [apply flags_of|]. split; [apply frame_type_named|]. split; [apply dec_writes|].
  split; [apply dec_writes|].
  unfold frame_format_text. rewrite K, P. reflexivity.
Qed.

Lemma http1_errors_valued : let err := fun e => http1_error_text (Produced e) in
  (forall b, valued "ParserError" "ChunkExtensionName" "" b (err (Http1Model.ErChunkExtensionName b))) /\
  (forall b, valued "ParserError" "ChunkExtensionValue" "" b (err (Http1Model.ErChunkExtensionValue b))) /\
  (forall b, valued "ParserError" "ChunkLength" "" b (err (Http1Model.ErChunkLength b))) /\
  named "ParserError" "ChunkLengthOverflow" (http1_error_text ChunkLengthOverflow) /\
  (forall b, valued "ParserError" "CrlfSequence" "" b (err (Http1Model.ErCrlfSequence b))) /\
  named "ParserError" "Dead" (err Http1Model.ErDead) /\
  (forall b, valued "ParserError" "HeaderName" "" b (err (Http1Model.ErHeaderName b))) /\
  (forall b, valued "ParserError" "HeaderValue" "" b (err (Http1Model.ErHeaderValue b))) /\
  (forall b, valued "ParserError" "Method" "" b (err (Http1Model.ErMethod b))) /\
  (forall b, valued "ParserError" "Multipart" "" b (http1_error_text (MultipartError b))) /\
  (forall b, valued "ParserError" "MultipartBoundary" "" b (err (Http1Model.ErMultipartBoundary b))) /\
  (forall b, valued "ParserError" "Status" "" b (err (Http1Model.ErStatus b))) /\
  (forall b, valued "ParserError" "StatusCode" "" b (err (Http1Model.ErStatusCode b))) /\
  (forall b, valued "ParserError" "Url" "" b (err (Http1Model.ErUrl b))) /\
  (forall b, valued "ParserError" "UrlEncodedName" "" b (err (Http1Model.ErUrlEncodedName b))) /\
  (forall b, valued "ParserError" "UrlEncodedValue" "" b (err (Http1Model.ErUrlEncodedValue b))) /\
  (forall b, valued "ParserError" "Version" "" b (err (Http1Model.ErVersion b))).
Proof.
  cbv zeta. repeat match goal with |- _ /\ _ => split | |- forall _, _ => intro end.
  all: first [reflexivity|val].
Qed.

Lemma http2_error_named : named "ParserError" "Dead" http2_error_text.
Proof. reflexivity. Qed.

Lemma util_errors_valued :
  (forall b, valued "DecodeError" "Byte" "" b (decode_error_text (UtilModel.DByte b))) /\
  (forall b, valued "DecodeError" "HexSequence" "" b (decode_error_text (UtilModel.DHexSequence b))) /\
  (forall b, valued "QueryError" "Name" "" b (query_error_text (UtilModel.EName b))) /\
  (forall b, valued "QueryError" "Value" "" b (query_error_text (UtilModel.EValue b))) /\
  (forall b, valued "FieldError" "Name" "Invalid field name on byte " b (field_error_text (UtilModel.EName b))) /\
  (forall b, valued "FieldError" "Value" "Invalid field value on byte " b (field_error_text (UtilModel.EValue b))).
Proof. repeat split; intros b; val. Qed.

Lemma success_applied n :
  applied "Success" "Callback" (N.of_nat n) (success_debug (Http1Model.SCallback n)) /\
  applied "Success" "Eos" (N.of_nat n) (success_debug (Http1Model.SEos n)) /\
  applied "Success" "Finished" (N.of_nat n) (success_debug (Http1Model.SFinished n)) /\
  writes (success_display (Http1Model.SCallback n)) (N.of_nat n) /\
  writes (success_display (Http1Model.SEos n)) (N.of_nat n) /\
  writes (success_display (Http1Model.SFinished n)) (N.of_nat n).
Proof. do 3 (split; [val|]). do 2 (split; [apply dec_writes|]). apply dec_writes. Qed.
