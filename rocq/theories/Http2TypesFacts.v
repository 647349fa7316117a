(* Facts about the small HTTP/2 types. *)

From Coq Require Import NArith List Bool Lia.
From Verif Require Import Http2Types Http2TypesSpec.
Import ListNotations.
Local Open Scope N_scope.

Ltac small n := let H := fresh in
  match goal with _ : n < ?k |- _ =>
    assert (exists m, n = N.of_nat m /\ (m < N.to_nat k)%nat) as (m & -> & H)
      by (exists (N.to_nat n); lia);
    cbn in H; do 16 (try destruct m as [|m]; [try reflexivity|]); try lia
  end.

Ltac big :=
  repeat match goal with |- context [?b =? ?c] =>
    replace (b =? c) with false by (symmetry; apply N.eqb_neq; unfold c; lia) end.

Lemma frame_type_decodes b :
  frame_type_from_u8 b = match entry 0 rfc_types b with Some t => t | None => FtUnsupported end.
Proof.
  destruct (N.lt_ge_cases b 10) as [L|L].
  - small b.
  - unfold frame_type_from_u8. big. unfold entry. destruct (b <? 0); [reflexivity|].
    rewrite (proj2 (nth_error_None rfc_types _)); [reflexivity|]. cbn. lia.
Qed.

Lemma frame_type_encodes b t : entry 0 rfc_types b = Some t -> frame_type_as_byte t = b.
Proof.
  intros E. assert (b < 10) as L.
  { unfold entry in E. destruct (b <? 0); [discriminate|].
    assert (nth_error rfc_types (N.to_nat (b - 0)) <> None) as NN by congruence.
    apply nth_error_Some in NN. cbn in NN. lia. }
  revert E. assert (exists m, b = N.of_nat m /\ (m < 10)%nat) as (m & -> & H)
    by (exists (N.to_nat b); lia).
  do 10 (destruct m as [|m]; [intros E; cbn in E; injection E as <-; reflexivity|]). lia.
Qed.

Lemma frame_type_all t : t = FtUnsupported \/ exists b, b < 10 /\ entry 0 rfc_types b = Some t.
Proof.
  destruct t; auto; right;
  [exists 9|exists 0|exists 7|exists 1|exists 6|exists 2|exists 5|exists 3|exists 4|exists 8];
  split; reflexivity || lia.
Qed.

Lemma frame_type_consistent :
  (forall b, frame_type_from_u8 b = match entry 0 rfc_types b with Some t => t | None => FtUnsupported end) /\
  (forall b t, entry 0 rfc_types b = Some t -> frame_type_as_byte t = b) /\
  (forall t, t <> FtUnsupported -> frame_type_from_u8 (frame_type_as_byte t) = t) /\
  (forall b, 10 <= b -> frame_type_from_u8 b = FtUnsupported) /\
  frame_type_as_byte FtUnsupported = 255 /\
  (forall b, b <= 10 -> only type_tests b (frame_type_from_u8 b)).
Proof.
  split; [exact frame_type_decodes|]. split; [exact frame_type_encodes|].
  split; [intros []; congruence || reflexivity|]. split; [|split; [reflexivity|]].
  - intros b L. unfold frame_type_from_u8. now big.
  - intros b L. assert (b < 11) as L' by lia. clear L.
    assert (exists m, b = N.of_nat m /\ (m < 11)%nat) as (m & -> & H) by (exists (N.to_nat b); lia).
    do 11 (destruct m as [|m]; [reflexivity|]). lia.
Qed.

Lemma error_code_decodes b :
  error_code_from_u8 b = match entry 0 rfc_errors b with Some t => t | None => EcUnsupported end.
Proof.
  destruct (N.lt_ge_cases b 14) as [L|L].
  - small b.
  - unfold error_code_from_u8. big. unfold entry. destruct (b <? 0); [reflexivity|].
    rewrite (proj2 (nth_error_None rfc_errors _)); [reflexivity|]. cbn. lia.
Qed.

Lemma error_code_encodes b t : entry 0 rfc_errors b = Some t -> error_code_as_byte t = b.
Proof.
  intros E. assert (b < 14) as L.
  { unfold entry in E. destruct (b <? 0); [discriminate|].
    assert (nth_error rfc_errors (N.to_nat (b - 0)) <> None) as NN by congruence.
    apply nth_error_Some in NN. cbn in NN. lia. }
  revert E. assert (exists m, b = N.of_nat m /\ (m < 14)%nat) as (m & -> & H)
    by (exists (N.to_nat b); lia).
  do 14 (destruct m as [|m]; [intros E; cbn in E; injection E as <-; reflexivity|]). lia.
Qed.

Lemma error_code_consistent :
  (forall b, error_code_from_u8 b = match entry 0 rfc_errors b with Some t => t | None => EcUnsupported end) /\
  (forall b t, entry 0 rfc_errors b = Some t -> error_code_as_byte t = b) /\
  (forall t, t <> EcUnsupported -> error_code_from_u8 (error_code_as_byte t) = t) /\
  (forall b, 14 <= b -> error_code_from_u8 b = EcUnsupported) /\
  error_code_as_byte EcUnsupported = 255 /\
  (forall b, b <= 14 -> only error_tests b (error_code_from_u8 b)).
Proof.
  split; [exact error_code_decodes|]. split; [exact error_code_encodes|].
  split; [intros []; congruence || reflexivity|]. split; [|split; [reflexivity|]].
  - intros b L. unfold error_code_from_u8. now big.
  - intros b L. assert (exists m, b = N.of_nat m /\ (m < 15)%nat) as (m & -> & H) by (exists (N.to_nat b); lia).
    do 15 (destruct m as [|m]; [reflexivity|]). lia.
Qed.

Lemma setting_consistent :
  (forall id v, setting_new id v =
     match entry 1 rfc_settings id with Some s => s v | None => SeUnsupported v end) /\
  (forall id v, setting_value (setting_new id v) = v) /\
  (forall id v, id = 0 \/ 7 <= id -> setting_new id v = SeUnsupported v) /\
  (forall id v, id <= 6 -> only setting_tests id (setting_new (id + 1) v)).
Proof.
  assert (forall id v, setting_new id v =
     match entry 1 rfc_settings id with Some s => s v | None => SeUnsupported v end) as D.
  { intros id v. destruct (N.lt_ge_cases id 7) as [L|L].
    - assert (exists m, id = N.of_nat m /\ (m < 7)%nat) as (m & -> & H) by (exists (N.to_nat id); lia).
      do 7 (destruct m as [|m]; [reflexivity|]). lia.
    - unfold setting_new. big. unfold entry. destruct (id <? 1) eqn:E; [reflexivity|].
      rewrite (proj2 (nth_error_None rfc_settings _)); [reflexivity|]. cbn. lia. }
  split; [exact D|]. split; [|split].
  - intros id v. unfold setting_new. repeat destruct (id =? _); reflexivity.
  - intros id v [->|L]; [reflexivity|]. unfold setting_new. now big.
  - intros id v L. assert (exists m, id = N.of_nat m /\ (m < 7)%nat) as (m & -> & H) by (exists (N.to_nat id); lia).
    do 7 (destruct m as [|m]; [reflexivity|]). lia.
Qed.

Lemma land_bit f n : (N.land f (2 ^ n) =? 2 ^ n) = N.testbit f n.
Proof.
  destruct (N.testbit f n) eqn:T.
  - apply N.eqb_eq, N.bits_inj. intros k. rewrite N.land_spec, N.pow2_bits_eqb.
    destruct (N.eqb_spec n k); subst; [now rewrite T|apply andb_false_r].
  - apply N.eqb_neq. intros E. apply (f_equal (fun x => N.testbit x n)) in E.
    rewrite N.land_spec, N.pow2_bits_true, T in E. discriminate.
Qed.

Lemma flags_consistent : forall b,
  flags_as_byte (flags_from_u8 b) = b /\
  flags_is_ack (flags_from_u8 b) = N.testbit b 0 /\
  flags_is_end_stream (flags_from_u8 b) = N.testbit b 0 /\
  flags_is_end_headers (flags_from_u8 b) = N.testbit b 2 /\
  flags_is_padded (flags_from_u8 b) = N.testbit b 3 /\
  flags_is_priority (flags_from_u8 b) = N.testbit b 5 /\
  flags_is_empty (flags_from_u8 b) = (b =? 0).
Proof.
  intros b. split; [reflexivity|].
  split; [exact (land_bit b 0)|]. split; [exact (land_bit b 0)|]. split; [exact (land_bit b 2)|].
  split; [exact (land_bit b 3)|]. split; [exact (land_bit b 5)|]. reflexivity.
Qed.

Lemma format_word len t : t < 256 ->
  N.lor (N.shiftl len 8 mod 2 ^ 32) t = (len mod 2 ^ 24) * 256 + t.
Proof.
  intros T. rewrite N.shiftl_mul_pow2. change (2 ^ 8) with 256.
  change (2 ^ 32) with (2 ^ 24 * 256). rewrite N.mul_mod_distr_r by discriminate.
  apply N.bits_inj. intros k. rewrite N.lor_spec.
  change 256 with (2 ^ 8) in *.
  destruct (N.lt_ge_cases k 8) as [K|K].
  - rewrite N.mul_pow2_bits_low by assumption. cbn [orb].
    rewrite <- (N.mod_pow2_bits_low _ 8) by assumption.
    rewrite <- (N.mod_pow2_bits_low (_ + _) 8 k) by assumption.
    f_equal. rewrite N.add_comm, N.mod_add by discriminate. reflexivity.
  - rewrite N.mul_pow2_bits_high by assumption.
    assert (N.testbit t k = false) as ->.
    { destruct t as [|p]; [apply N.bits_0|]. apply N.bits_above_log2.
      apply N.log2_lt_pow2; [reflexivity|]. eapply N.lt_le_trans; [exact T|].
      apply N.pow_le_mono_r; [discriminate|exact K]. }
    rewrite orb_false_r. rewrite <- (N.sub_add 8 k) at 2 by assumption.
    rewrite <- N.div_pow2_bits. rewrite N.div_add_l by discriminate.
    rewrite (N.div_small t) by assumption. now rewrite N.add_0_r.
Qed.

Lemma frame_format_consistent : forall len t f sid, t < 256 ->
  let x := frame_format_new len t f sid in
  frame_format_payload_length x = len mod 2 ^ 24 /\
  (len < 2 ^ 24 -> frame_format_payload_length x = len) /\
  frame_format_frame_type x = frame_type_from_u8 t /\
  flags_as_byte (frame_format_flags x) = f /\ frame_format_stream_id x = sid.
Proof.
  intros len t f sid T x.
  assert (frame_format_payload_length x = len mod 2 ^ 24) as E.
  { unfold x, frame_format_payload_length, frame_format_new. cbn [ff_payload_length_frame_type].
    rewrite format_word by assumption. rewrite N.shiftr_div_pow2. change (2 ^ 8) with 256.
    rewrite N.div_add_l by discriminate. rewrite (N.div_small t) by assumption. lia. }
  split; [exact E|]. split; [intros L; rewrite E; now apply N.mod_small|].
  split; [|split; reflexivity].
  unfold x, frame_format_frame_type, frame_format_new. cbn [ff_payload_length_frame_type].
  rewrite format_word by assumption. f_equal. change 255 with (N.ones 8). rewrite N.land_ones.
  rewrite N.add_comm. change (2 ^ 8) with 256. rewrite N.mod_add by discriminate.
  now apply N.mod_small.
Qed.
