(* What the automaton of Http2Sem.v makes of a well-formed frame. *)

From Coq Require Import NArith ZArith List Bool Arith String Lia.
From Verif Require Import Bytes ByteStream Http2Model Http2Spec Http2Sem Http2Sim.
Import ListNotations.
Local Open Scope N_scope.

(* ------------------------------------------------------------------ *)
(* Numbers                                                              *)
(* ------------------------------------------------------------------ *)

Definition cat4 (b0 b1 b2 b3 : byte) : N :=
  N.lor (N.lor (N.lor (N.lor 0 (shl32 b0 24)) (shl32 b1 16)) (shl32 b2 8)) b3.
Definition cat2 (b0 b1 : byte) : N := N.lor (N.lor 0 (shl16 b0 8)) b1.

Lemma shl32_mul b n : b < 256 -> n <= 24 -> shl32 b n = b * 2 ^ n.
Proof.
  intros B H. unfold shl32, u32. rewrite N.shiftl_mul_pow2. apply N.mod_small.
  change (2 ^ 32) with (256 * 2 ^ 24).
  apply N.lt_le_trans with (256 * 2 ^ n).
  - apply N.mul_lt_mono_pos_r; [|assumption]. apply N.neq_0_lt_0, N.pow_nonzero. discriminate.
  - apply N.mul_le_mono_l, N.pow_le_mono_r; [discriminate|assumption].
Qed.

Lemma shl16_mul b : b < 256 -> shl16 b 8 = b * 256.
Proof.
  intros B. unfold shl16. rewrite N.shiftl_mul_pow2. apply N.mod_small.
  change (2 ^ 16) with 65536. change (2 ^ 8) with 256. lia.
Qed.

Lemma lor_add l z n : z < 2 ^ n -> N.lor (l * 2 ^ n) z = l * 2 ^ n + z.
Proof. intros H. rewrite N.lor_comm. now apply lor_add_small. Qed.

Lemma cat4_sum b0 b1 b2 b3 : b0 < 256 -> b1 < 256 -> b2 < 256 -> b3 < 256 ->
  cat4 b0 b1 b2 b3 = ((b0 * 256 + b1) * 256 + b2) * 256 + b3.
Proof.
  intros B0 B1 B2 B3. unfold cat4. rewrite N.lor_0_l, !shl32_mul by (assumption || discriminate).
  rewrite lor_add by (change (2 ^ 24) with (256 * 2 ^ 16); apply N.mul_lt_mono_pos_r; [reflexivity|assumption]).
  replace (b0 * 2 ^ 24 + b1 * 2 ^ 16) with ((b0 * 256 + b1) * 2 ^ 16)
    by (change (2 ^ 24) with 16777216; change (2 ^ 16) with 65536; lia).
  rewrite lor_add by (change (2 ^ 16) with (256 * 2 ^ 8); apply N.mul_lt_mono_pos_r; [reflexivity|assumption]).
  replace ((b0 * 256 + b1) * 2 ^ 16 + b2 * 2 ^ 8) with (((b0 * 256 + b1) * 256 + b2) * 2 ^ 8)
    by (change (2 ^ 16) with 65536; change (2 ^ 8) with 256; lia).
  rewrite lor_add by assumption. reflexivity.
Qed.

Lemma cat2_sum b0 b1 : b0 < 256 -> b1 < 256 -> cat2 b0 b1 = b0 * 256 + b1.
Proof.
  intros B0 B1. unfold cat2. rewrite N.lor_0_l, shl16_mul by assumption.
  change 256 with (2 ^ 8). now rewrite lor_add.
Qed.

Lemma byte_mod v : v mod 256 < 256.
Proof. now apply N.mod_lt. Qed.

Lemma split4 v : v < 2 ^ 32 ->
  v = ((v / 2 ^ 24 mod 256 * 256 + v / 2 ^ 16 mod 256) * 256 + v / 2 ^ 8 mod 256) * 256 + v mod 256.
Proof.
  intros H.
  change (2 ^ 24) with (256 * 256 * 256). change (2 ^ 16) with (256 * 256). change (2 ^ 8) with 256.
  rewrite <- !N.div_div by discriminate.
  rewrite (N.mod_small (v / 256 / 256 / 256)).
  - rewrite (N.mul_comm (v / 256 / 256 / 256)), <- N.div_mod by discriminate.
    rewrite (N.mul_comm (v / 256 / 256)), <- N.div_mod by discriminate.
    rewrite (N.mul_comm (v / 256)), <- N.div_mod by discriminate. reflexivity.
  - apply N.div_lt_upper_bound; [discriminate|]. apply N.div_lt_upper_bound; [discriminate|].
    apply N.div_lt_upper_bound; [discriminate|]. exact H.
Qed.

Lemma cat4_be32 v : v < 2 ^ 32 ->
  cat4 (v / 2 ^ 24 mod 256) (v / 2 ^ 16 mod 256) (v / 2 ^ 8 mod 256) (v mod 256) = v.
Proof.
  intros H. rewrite cat4_sum by apply byte_mod. symmetry. now apply split4.
Qed.

Lemma cat4_header v t : v < 2 ^ 24 -> t < 256 ->
  cat4 (v / 2 ^ 16 mod 256) (v / 2 ^ 8 mod 256) (v mod 256) t = enc v t.
Proof.
  intros H T. rewrite cat4_sum by (apply byte_mod || assumption). unfold enc. f_equal. f_equal.
  change (2 ^ 16) with (256 * 256). change (2 ^ 8) with 256.
  rewrite <- !N.div_div by discriminate.
  rewrite (N.mod_small (v / 256 / 256)).
  - rewrite (N.mul_comm (v / 256 / 256)), <- N.div_mod by discriminate.
    rewrite (N.mul_comm (v / 256)), <- N.div_mod by discriminate. reflexivity.
  - apply N.div_lt_upper_bound; [discriminate|]. apply N.div_lt_upper_bound; [discriminate|]. exact H.
Qed.

Lemma cat2_be16 v : v < 2 ^ 16 -> cat2 (v / 2 ^ 8 mod 256) (v mod 256) = v.
Proof.
  intros H. rewrite cat2_sum by apply byte_mod. change (2 ^ 8) with 256.
  rewrite (N.mod_small (v / 256)).
  - rewrite (N.mul_comm (v / 256)), <- N.div_mod by discriminate. reflexivity.
  - apply N.div_lt_upper_bound; [discriminate|]. exact H.
Qed.

(* two 16-bit halves *)
Lemma halves v : v < 2 ^ 32 ->
  N.lor (shl32 (cat2 (v / 2 ^ 24 mod 256) (v / 2 ^ 16 mod 256)) 16)
        (cat2 (v / 2 ^ 8 mod 256) (v mod 256)) = v.
Proof.
  intros H. rewrite !cat2_sum by apply byte_mod.
  pose proof (byte_mod (v / 2 ^ 24)) as L0. pose proof (byte_mod (v / 2 ^ 16)) as L1.
  pose proof (byte_mod (v / 2 ^ 8)) as L2. pose proof (byte_mod v) as L3.
  rewrite (split4 v H) at 5.
  generalize dependent (v / 2 ^ 24 mod 256). generalize dependent (v / 2 ^ 16 mod 256).
  generalize dependent (v / 2 ^ 8 mod 256). generalize dependent (v mod 256). clear H.
  intros b3 B3 b2 B2 b1 B1 b0 B0.
  unfold shl32, u32. rewrite N.shiftl_mul_pow2.
  rewrite N.mod_small by (change (2 ^ 32) with (65536 * 65536); change (2 ^ 16) with 65536; lia).
  rewrite lor_add by (change (2 ^ 16) with 65536; lia). change (2 ^ 16) with 65536. lia.
Qed.

Lemma bit31_lt b s : s < 2 ^ 31 -> bit31 b s < 2 ^ 32.
Proof. intros H. unfold bit31. change (2 ^ 32) with (2 ^ 31 + 2 ^ 31). destruct b; lia. Qed.

Lemma bit31_low b s : s < 2 ^ 31 -> N.land (bit31 b s) 2147483647 = s.
Proof.
  intros H. change 2147483647 with (N.ones 31). rewrite N.land_ones. unfold bit31.
  destruct b.
  - rewrite <- (N.mul_1_l (2 ^ 31)) at 1. rewrite N.add_comm, N.mod_add by discriminate.
    now apply N.mod_small.
  - now apply N.mod_small.
Qed.

Lemma bit31_high b s : s < 2 ^ 31 -> (N.shiftr (bit31 b s) 31 =? 1) = b.
Proof.
  intros H. rewrite N.shiftr_div_pow2. unfold bit31. destruct b.
  - rewrite <- (N.mul_1_l (2 ^ 31)) at 1. rewrite N.div_add_l by discriminate.
    now rewrite (N.div_small s).
  - now rewrite (N.div_small (0 + s)).
Qed.

Lemma land_high l z : z < 256 -> l < 2 ^ 24 -> N.land (enc l z) 4294967040 = enc l 0.
Proof.
  intros Z L. change 4294967040 with (N.ldiff (N.ones 32) (N.ones 8)).
  apply N.bits_inj. intros n. rewrite N.land_spec, N.ldiff_spec.
  unfold enc. rewrite N.add_0_r. change (l * 256) with (l * 2 ^ 8).
  rewrite <- (lor_add l z 8) by exact Z. rewrite N.lor_spec.
  destruct (N.lt_ge_cases n 8) as [C|C].
  - rewrite (N.ones_spec_low 8) by assumption. rewrite andb_false_r, andb_false_r.
    now rewrite N.mul_pow2_bits_low.
  - rewrite (N.ones_spec_high 8) by assumption. cbn [negb]. rewrite andb_true_r.
    rewrite <- (N.mod_small z (2 ^ 8)) by exact Z. rewrite N.mod_pow2_bits_high by assumption.
    rewrite orb_false_r. destruct (N.lt_ge_cases n 32) as [D|D].
    + rewrite (N.ones_spec_low 32) by assumption. now rewrite andb_true_r.
    + rewrite (N.ones_spec_high 32) by assumption. rewrite andb_false_r.
      rewrite <- (N.mod_small (l * 2 ^ 8) (2 ^ 32)).
      * now rewrite N.mod_pow2_bits_high.
      * change (2 ^ 32) with (2 ^ 24 * 2 ^ 8). apply N.mul_lt_mono_pos_r; [reflexivity|exact L].
Qed.

Lemma u8_small v : v < 256 -> u8 v = v.
Proof. intros H. unfold u8. now apply N.mod_small. Qed.

Lemma lor_enc l z : z < 256 -> N.lor (enc l 0) z = enc l z.
Proof. intros H. unfold enc. rewrite N.add_0_r. now apply (lor_add l z 8). Qed.

Lemma weight_back w : w < 256 -> u8 (N.shiftr (shl16 w 8) 8) = w.
Proof.
  intros H. rewrite shl16_mul by assumption. rewrite N.shiftr_div_pow2. change (2 ^ 8) with 256.
  rewrite N.div_mul by discriminate. now apply u8_small.
Qed.

(* ------------------------------------------------------------------ *)
(* Headers                                                              *)
(* ------------------------------------------------------------------ *)

(* The state after the header of a frame of type t with flags f. *)
Definition start (t f : N) : pstate :=
  match t with
  | 0 => if flag_padded f then StDataPadLength else StDataData
  | 1 => if flag_padded f
         then if flag_priority f then StHeadersPadLengthWithPriority
              else StHeadersPadLengthWithoutPriority
         else if flag_priority f then StHeadersStreamId1
         else StHeadersFragment
  | 2 => StPriorityStreamId1
  | 3 => StRstStreamErrorCode1
  | 4 => StSettingsId1
  | 5 => if flag_padded f then StPushPromisePadLength else StPushPromiseStreamId1
  | 6 => StPingData
  | 7 => StGoAwayStreamId1
  | 8 => StWindowUpdateIncrement1
  | 9 => StHeadersFragment
  | _ => if flag_padded f then StUnsupportedPadLength else StUnsupportedData
  end.

Lemma land_pow2 f n : (N.land f (2 ^ n) =? 2 ^ n) = N.testbit f n.
Proof.
  assert (N.land f (2 ^ n) = if N.testbit f n then 2 ^ n else 0) as ->.
  { apply N.bits_inj. intros j. rewrite N.land_spec, N.pow2_bits_eqb.
    destruct (N.eqb_spec n j) as [<-|NE].
    - rewrite andb_true_r. destruct (N.testbit f n); [now rewrite N.pow2_bits_true|now rewrite N.bits_0].
    - rewrite andb_false_r. destruct (N.testbit f n); [now rewrite N.pow2_bits_false|now rewrite N.bits_0]. }
  destruct (N.testbit f n); [apply N.eqb_refl|].
  apply N.eqb_neq. intros E. symmetry in E. revert E. apply N.pow_nonzero. discriminate.
Qed.

Lemma target_start l t f : t < 256 -> f < 256 -> target (enc l t) f = start t f.
Proof.
  intros T F. unfold target, frame_target, has_flag. cbn [mp bit_data32a bit_data16a].
  change (N.land (enc l t) 255) with (pads (enc l t)). rewrite pads_enc by assumption.
  rewrite !u8_small by assumption.
  change (N.land f FL_PADDED =? FL_PADDED) with (N.land f (2 ^ 3) =? 2 ^ 3).
  change (N.land f FL_PRIORITY =? FL_PRIORITY) with (N.land f (2 ^ 5) =? 2 ^ 5).
  rewrite !land_pow2. reflexivity.
Qed.

(* the header of a frame *)
Lemma aexec_header len t f rsv sid r :
  len < 2 ^ 24 -> t < 256 -> f < 256 -> sid < 2 ^ 31 ->
  aexec A0 (render_header len t f rsv sid ++ r) =
  before [FEv (EFrameFormat len t f sid)] (aexec (mkA (start t f) (enc len 0) 0 0 0) r).
Proof.
  intros L T F S. unfold render_header, be24, be32. cbn [app].
  pose proof (cat4_header len t L T) as H1. pose proof (cat4_be32 _ (bit31_lt rsv sid S)) as H2.
  generalize dependent (len / 2 ^ 16 mod 256). intros l1.
  generalize (len / 2 ^ 8 mod 256). intros l2. generalize (len mod 256). intros l3 H1.
  generalize dependent (bit31 rsv sid / 2 ^ 24 mod 256). intros s1.
  generalize (bit31 rsv sid / 2 ^ 16 mod 256). intros s2.
  generalize (bit31 rsv sid / 2 ^ 8 mod 256). intros s3.
  generalize (bit31 rsv sid mod 256). intros s4 H2.
  do 9 eat1. rewrite !before_before. cbn [app]. rewrite before_nil.
  unfold cat4 in H1, H2. rewrite N.lor_0_l in H1. rewrite H1, H2.
  rewrite <- (target_start len) by assumption.
  erewrite aexec_post by (cbn [post]; exact eq_refl).
  rewrite plen_enc, pads_enc, land_high by assumption.
  rewrite bit31_low, !u8_small by assumption. reflexivity.
Qed.

(* ------------------------------------------------------------------ *)
(* Fields                                                               *)
(* ------------------------------------------------------------------ *)

Ltac field v V :=
  unfold be32, be16; cbn [app];
  pose proof (cat4_be32 v V) as H; unfold cat4 in H; revert H;
  generalize (v / 2 ^ 24 mod 256); intros v1;
  generalize (v / 2 ^ 16 mod 256); intros v2;
  generalize (v / 2 ^ 8 mod 256); intros v3;
  generalize (v mod 256); intros v4 H;
  repeat eat1; rewrite !before_before; cbn [app]; rewrite before_nil, H; reflexivity.

Lemma f_go_away v a c d r : v < 2 ^ 32 ->
  aexec (mkA StGoAwayStreamId1 a 0 c d) (be32 v ++ r) = aexec (mkA StGoAwayErrorCode1 a v c d) r.
Proof. intros V. field v V. Qed.
Lemma f_headers v a c d r : v < 2 ^ 32 ->
  aexec (mkA StHeadersStreamId1 a 0 c d) (be32 v ++ r) = aexec (mkA StHeadersWeight a v c d) r.
Proof. intros V. field v V. Qed.
Lemma f_priority v a c d r : v < 2 ^ 32 ->
  aexec (mkA StPriorityStreamId1 a 0 c d) (be32 v ++ r) = aexec (mkA StPriorityWeight a v c d) r.
Proof. intros V. field v V. Qed.
Lemma f_push v a c d r : v < 2 ^ 32 ->
  aexec (mkA StPushPromiseStreamId1 a 0 c d) (be32 v ++ r) =
  aexec (mkA StPushPromiseCallback a v c d) r.
Proof. intros V. field v V. Qed.
Lemma f_rst v a c d r : v < 2 ^ 32 ->
  aexec (mkA StRstStreamErrorCode1 a 0 c d) (be32 v ++ r) =
  before [FEv (ERstStream v)] (aexec A0 r).
Proof.
  intros V. rewrite <- (aexec_post (mkA StRstStreamCallback a v c d)) by reflexivity. field v V.
Qed.
Lemma f_settings v a c d r : v < 2 ^ 32 ->
  aexec (mkA StSettingsValue1 a 0 c d) (be32 v ++ r) =
  before [FEv (ESettings c v)] (aexec A0 r).
Proof.
  intros V. rewrite <- (aexec_post (mkA StSettingsCallback a v c d)) by reflexivity. field v V.
Qed.
Lemma f_window v a c d r : v < 2 ^ 32 ->
  aexec (mkA StWindowUpdateIncrement1 a 0 c d) (be32 v ++ r) =
  before [FEv (EWindowUpdate v)] (aexec A0 r).
Proof.
  intros V. rewrite <- (aexec_post (mkA StWindowUpdateCallback a v c d)) by reflexivity. field v V.
Qed.
Lemma f_setting_id v a d r : v < 2 ^ 16 ->
  aexec (mkA StSettingsId1 a 0 0 d) (be16 v ++ r) = aexec (mkA StSettingsValue1 a 0 v d) r.
Proof.
  intros V. unfold be16. cbn [app]. pose proof (cat2_be16 v V) as H. unfold cat2 in H. revert H.
  generalize (v / 2 ^ 8 mod 256). intros v3. generalize (v mod 256). intros v4 H.
  repeat eat1. rewrite !before_before. cbn [app]. rewrite before_nil, H. reflexivity.
Qed.

(* error code of GOAWAY, then the callback *)
Lemma f_code v a b r : v < 2 ^ 32 ->
  exists c d, N.lor (shl32 c 16) d = v /\
  aexec (mkA StGoAwayErrorCode1 a b 0 0) (be32 v ++ r) = aexec (mkA StGoAwayCallback a b c d) r.
Proof.
  intros V. eexists _, _. split; [exact (halves v V)|].
  unfold be32. cbn [app]. unfold cat2.
  generalize (v / 2 ^ 24 mod 256). intros v1.
  generalize (v / 2 ^ 16 mod 256). intros v2.
  generalize (v / 2 ^ 8 mod 256). intros v3.
  generalize (v mod 256). intros v4.
  repeat eat1. rewrite !before_before. cbn [app]. now rewrite before_nil.
Qed.

(* data, then padding *)
Lemma f_data s k b c d x z r :
  kind_of s = Some k -> (List.length z < 256)%nat ->
  N.of_nat (List.length x + List.length z) < 2 ^ 24 -> x ++ z ++ r <> [] ->
  aexec (mkA s (enc (N.of_nat (List.length x + List.length z)) (N.of_nat (List.length z))) b c d)
        (x ++ z ++ r) = before (item k x) (aexec A0 r).
Proof.
  intros K Z L NE. rewrite (aexec_data_end _ k) by (assumption || lia).
  unfold item. f_equal. unfold done. destruct (N.ltb_spec 0 (N.of_nat (List.length z))) as [C|C].
  - apply aexec_pad_end; try lia. destruct z; [cbn in C; lia|discriminate].
  - destruct z; [reflexivity|cbn in C; lia].
Qed.

(* the pad length *)
Lemma f_pad s s' l z b c d r :
  (s, s') = (StDataPadLength, StDataData) \/
  (s, s') = (StHeadersPadLengthWithPriority, StHeadersStreamId1) \/
  (s, s') = (StHeadersPadLengthWithoutPriority, StHeadersCallback) \/
  (s, s') = (StPushPromisePadLength, StPushPromiseStreamId1) \/
  (s, s') = (StUnsupportedPadLength, StUnsupportedData) ->
  0 < l -> l < 2 ^ 24 -> z < 256 ->
  aexec (mkA s (enc l 0) b c d) (z :: r) = aexec (mkA s' (enc (l - 1) z) b c d) r.
Proof.
  intros P L1 L2 Z. rewrite <- (before_nil (aexec _ r)).
  repeat destruct P as [P|P]; injection P as -> ->;
    (apply aexec_eat; [ready|]); unfold eat; rewrite lor_enc, adec_enc by (assumption || lia); reflexivity.
Qed.

(* ------------------------------------------------------------------ *)
(* Frames                                                               *)
(* ------------------------------------------------------------------ *)

Definition zeros (pad : option (list byte)) : list byte :=
  match pad with Some z => z | None => [] end.

Lemma prompt_nonempty (d : list byte) pad (r : list byte) :
  (d <> [] \/ exists z, pad = Some z /\ z <> []) \/ r <> [] -> d ++ zeros pad ++ r <> [].
Proof.
  intros [[H|(z & -> & H)]|H] E; apply app_eq_nil in E; destruct E as [E1 E2];
    try (now apply H); apply app_eq_nil in E2; now apply H.
Qed.

(* unpadded data *)
Lemma f_data0 s k b c d x r :
  kind_of s = Some k -> N.of_nat (List.length x) < 2 ^ 24 -> x ++ r <> [] ->
  aexec (mkA s (enc (N.of_nat (List.length x)) 0) b c d) (x ++ r) = before (item k x) (aexec A0 r).
Proof.
  intros K L NE. pose proof (f_data s k b c d x [] r K) as H. cbn [List.length app] in H.
  rewrite Nat.add_0_r in H. apply H; try assumption. lia.
Qed.

Lemma f_fragment b c d x z r :
  (List.length z < 256)%nat ->
  N.of_nat (List.length x + List.length z) < 2 ^ 24 -> x ++ z ++ r <> [] ->
  aexec (mkA StHeadersFragment
           (enc (N.of_nat (List.length x + List.length z)) (N.of_nat (List.length z))) b c d)
        (x ++ z ++ r) = before (item KFragment x) (aexec A0 r).
Proof. now apply f_data. Qed.

(* stream dependency and weight of HEADERS, then the callback *)
Lemma f_prio p l z c d r : wf_prio p -> 5 <= l -> l < 2 ^ 24 -> z < 256 ->
  exists c',
  aexec (mkA StHeadersStreamId1 (enc l z) 0 c d) (render_prio p ++ r) =
  before [FEv (EHeaders (pr_exclusive p) (pr_stream p) (pr_weight p))]
    (aexec (mkA StHeadersFragment (enc (l - 5) z) (bit31 (pr_exclusive p) (pr_stream p)) c' d) r).
Proof.
  intros [P1 P2] L1 L2 Z. exists (shl16 (pr_weight p) 8).
  unfold render_prio. rewrite <- app_assoc, f_headers by now apply bit31_lt. cbn [app].
  erewrite aexec_eat; [|ready|unfold eat; rewrite adec_enc by assumption; reflexivity].
  rewrite before_nil. erewrite aexec_post by (cbn [post]; exact eq_refl).
  now rewrite bit31_high, bit31_low, weight_back.
Qed.

Lemma render_prio_length p : List.length (render_prio p) = 5%nat.
Proof. reflexivity. Qed.

Lemma be32_length v : List.length (be32 v) = 4%nat.
Proof. reflexivity. Qed.

(* the promised stream id, then the callback *)
Lemma f_promise v l z c d r : v < 2 ^ 32 -> 4 <= l -> l < 2 ^ 24 -> z < 256 -> r <> [] ->
  aexec (mkA StPushPromiseStreamId1 (enc l z) 0 c d) (be32 v ++ r) =
  before [FEv (EPushPromise v)] (aexec (mkA StHeadersFragment (enc (l - 4) z) v c d) r).
Proof.
  intros V L1 L2 Z NE. rewrite f_push by assumption. destruct r as [|w r]; [congruence|].
  apply aexec_pre1; try reflexivity. unfold pre1. cbn [a_st a_a a_b a_c a_d].
  now rewrite adec_enc.
Qed.

(* Unknown types. *)
Lemma start_unknown t f : 10 <= t -> start t f = if flag_padded f then StUnsupportedPadLength else StUnsupportedData.
Proof.
  intros T. destruct t as [|q]; [lia|].
  unfold start. repeat (destruct q as [q|q|]; try reflexivity; try lia).
Qed.

Ltac len := cbn [List.length] in *; rewrite ?app_length, ?be32_length, ?render_prio_length in *; cbn [List.length] in *; lia.

Lemma g_data l s k b c d x z r :
  l = N.of_nat (List.length x + List.length z) ->
  kind_of s = Some k -> (List.length z < 256)%nat -> l < 2 ^ 24 -> x ++ z ++ r <> [] ->
  aexec (mkA s (enc l (N.of_nat (List.length z))) b c d) (x ++ z ++ r) =
  before (item k x) (aexec A0 r).
Proof. intros ->. apply f_data. Qed.

Lemma g_data0 l s k b c d x r :
  l = N.of_nat (List.length x) ->
  kind_of s = Some k -> l < 2 ^ 24 -> x ++ r <> [] ->
  aexec (mkA s (enc l 0) b c d) (x ++ r) = before (item k x) (aexec A0 r).
Proof. intros ->. apply f_data0. Qed.

Lemma before_cons e l r : before (e :: l) r = before [e] (before l r).
Proof. now rewrite before_before. Qed.

Lemma aexec_body f b r :
  wf_body f b -> N.of_nat (List.length (payload b)) < 2 ^ 24 -> prompt b \/ r <> [] ->
  aexec (mkA (start (type_of b) f) (enc (N.of_nat (List.length (payload b))) 0) 0 0 0)
        (payload b ++ r) = before (seen_body b) (aexec A0 r).
Proof.
  intros W L P. destruct b as [pad d|pad prio d|p|c|i v|pad rsv s d|d|rsv s c d|rsv n|d|t pad d];
    cbn [wf_body payload type_of seen_body prompt] in *.
  - (* DATA *)
    destruct W as [W1 W2]. cbn [start]. rewrite W1. pose proof (prompt_nonempty _ _ _ P) as NE.
    destruct pad as [z|]; cbn [padded is_some zeros app] in *.
    + rewrite f_pad with (s' := StDataData) by (auto || len).
      rewrite <- app_assoc. (apply g_data; [len|reflexivity|assumption|len|assumption]).
    + apply f_data0; try assumption; reflexivity.
  - (* HEADERS *)
    destruct W as ([W1 W2] & W3 & W4). cbn [start]. rewrite W1, W3.
    pose proof (prompt_nonempty _ _ _ P) as NE.
    destruct pad as [z|], prio as [p|]; cbn [padded is_some zeros app] in *.
    + rewrite f_pad with (s' := StHeadersStreamId1) by (auto || len).
      rewrite <- !app_assoc.
      match goal with |- context [enc ?l ?q] =>
        destruct (f_prio p l q 0 0 (d ++ z ++ r) W4) as (c' & E); try len end.
      rewrite E. rewrite (before_cons _ (item _ _)). f_equal.
      (apply g_data; [len|reflexivity|assumption|len|assumption]).
    + rewrite f_pad with (s' := StHeadersCallback) by (auto || len).
      rewrite <- !app_assoc.
      erewrite aexec_post by (cbn [post]; exact eq_refl). rewrite (before_cons _ (item _ _)). f_equal.
      (apply g_data; [len|reflexivity|assumption|len|assumption]).
    + rewrite <- !app_assoc.
      match goal with |- context [enc ?l ?q] =>
        destruct (f_prio p l q 0 0 (d ++ r) W4) as (c' & E); try len end.
      rewrite E. rewrite (before_cons _ (item _ _)). f_equal.
      (apply g_data0; [len|reflexivity|len|assumption]).
    + apply f_data0; try assumption; reflexivity.
  - (* PRIORITY *)
    destruct W as [W1 W2]. unfold render_prio. rewrite <- app_assoc.
    cbn [start]. rewrite f_priority by now apply bit31_lt. cbn [app].
    erewrite aexec_eat; [|ready|cbn [eat]; exact eq_refl].
    now rewrite bit31_high, bit31_low.
  - (* RST_STREAM *) cbn [start]. now apply f_rst.
  - (* SETTINGS *) destruct W as [W1 W2]. cbn [start].
    rewrite <- app_assoc, f_setting_id by assumption. now apply f_settings.
  - (* PUSH_PROMISE *)
    destruct W as [[W1 W2] W3]. cbn [start]. rewrite W1.
    pose proof (prompt_nonempty _ _ _ P) as NE. pose proof (bit31_lt rsv s W3) as W4.
    destruct pad as [z|]; cbn [padded is_some zeros app] in *.
    + rewrite f_pad with (s' := StPushPromiseStreamId1) by (auto || len).
      rewrite <- !app_assoc.
      rewrite f_promise by (assumption || len).
      rewrite (before_cons _ (item _ _)). f_equal.
      (apply g_data; [len|reflexivity|assumption|len|assumption]).
    + rewrite <- !app_assoc. rewrite f_promise by (assumption || len).
      rewrite (before_cons _ (item _ _)). f_equal.
      (apply g_data0; [len|reflexivity|len|assumption]).
  - (* PING *) cbn [start]. apply f_data0; try assumption; try reflexivity.
    destruct P as [P|P]; intros E; apply app_eq_nil in E; now apply P.
  - (* GOAWAY *)
    destruct W as [W1 W2]. cbn [start]. rewrite <- !app_assoc.
    rewrite f_go_away by now apply bit31_lt.
    match goal with |- context [mkA _ ?a ?b 0 0] =>
      destruct (f_code c a b (d ++ r) W2) as (c1 & c2 & C & E); rewrite E end.
    rewrite before_cons.
    erewrite aexec_post by (cbn [post]; rewrite adec_enc by len; exact eq_refl).
    rewrite bit31_low, C by assumption. f_equal. rewrite plen_enc by reflexivity.
    destruct d as [|w d]; [rewrite before_nil;
      match goal with |- context [0 <? ?x] => replace (0 <? x) with false
        by (symmetry; apply N.ltb_ge; len) end; reflexivity|].
    match goal with |- context [0 <? ?x] => replace (0 <? x) with true
      by (symmetry; apply N.ltb_lt; len) end.
    (apply g_data0; [len|reflexivity|len|discriminate]).
  - (* WINDOW_UPDATE *) cbn [start]. now apply f_window, bit31_lt.
  - (* CONTINUATION *) cbn [start]. apply f_data0; try assumption; try reflexivity.
    destruct P as [P|P]; intros E; apply app_eq_nil in E; now apply P.
  - (* unknown *)
    destruct W as ([T1 T2] & W1 & W2). rewrite start_unknown, W1 by assumption.
    pose proof (prompt_nonempty _ _ _ P) as NE.
    destruct pad as [z|]; cbn [padded is_some zeros app] in *.
    + rewrite f_pad with (s' := StUnsupportedData) by (auto || len).
      rewrite <- app_assoc. (apply g_data; [len|reflexivity|assumption|len|assumption]).
    + apply f_data0; try assumption; reflexivity.
Qed.

Lemma type_lt f b : wf_body f b -> type_of b < 256.
Proof. destruct b; cbn; intros; try reflexivity. tauto. Qed.

(* A frame, if a byte follows or its end says enough. *)
Lemma aexec_frame f r : wf_frame f -> prompt (f_body f) \/ r <> [] ->
  aexec A0 (render f ++ r) = before (seen f) (aexec A0 r).
Proof.
  intros (F1 & F2 & F3 & F4 & F5) P. unfold render. rewrite <- app_assoc.
  rewrite aexec_header by (assumption || exact (type_lt _ _ F3)).
  rewrite aexec_body by assumption. now rewrite before_before.
Qed.
