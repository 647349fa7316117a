(* A byte-by-byte automaton for HTTP/2 frames.  It does what the parser does
   when no multi-byte field is cut, and what it should do when one is.  Used
   only in proofs. *)

From Coq Require Import NArith List Bool Arith String Lia.
From Verif Require Import Bytes ByteStream Http2Model Http2Spec.
Import ListNotations.
Local Open Scope N_scope.

(* ------------------------------------------------------------------ *)
(* Payload length and pad length in one word                            *)
(* ------------------------------------------------------------------ *)

Definition plen (a : N) : N := N.shiftr a 8.
Definition pads (a : N) : N := N.land a 255.
(* payload length decreased by l; None if that is not possible *)
Definition adec (a l : N) : option N :=
  match sub32 true (plen a) l with
  | None => None
  | Some v => Some (N.lor (pads a) (shl32 v 8))
  end.

(* ------------------------------------------------------------------ *)
(* The automaton                                                        *)
(* ------------------------------------------------------------------ *)

Record A := mkA { a_st : pstate; a_a : N; a_b : N; a_c : N; a_d : N }.

(* Before a frame. *)
Definition A0 : A := mkA StFrameLength1 0 0 0 0.

(* The automaton state of a parser: what is left in the bit fields before a
   frame does not matter. *)
Definition abs (p : parser) : A :=
  match state_fn p with
  | StFrameLength1 => A0
  | s => mkA s (bit_data32a p) (bit_data32b p) (bit_data16a p) (bit_data16b p)
  end.

(* The state after the frame header. *)
Definition target (a c : N) : pstate :=
  frame_target (Mach (Parser a 0 c 0 0 StFrameLength1 StFrameLength1) (bs_new []) []).

(* The states that deliver data. *)
Definition kind_of (s : pstate) : option dkind :=
  match s with
  | StDataData => Some KData
  | StGoAwayDebugData => Some KDebug
  | StHeadersFragment => Some KFragment
  | StPingData => Some KPing
  | StUnsupportedData => Some KUnsupported
  | _ => None
  end.

(* After the last data byte. *)
Definition after_data (x : A) (a : N) : A :=
  if 0 <? pads a then mkA StFramePadding a (a_b x) (a_c x) (a_d x) else A0.

(* Callbacks made without waiting for a byte. *)
Definition post (x : A) : option (list fevent * A) :=
  let '(mkA s a b c d) := x in
  match s with
  | StFrameFormatEnd =>
      Some ([FEv (EFrameFormat (plen a) (u8 (pads a)) (u8 c) (N.land b 2147483647))],
            mkA (target a c) (N.land a 4294967040) 0 0 d)
  | StGoAwayCallback =>
      match adec a 8 with
      | None => None
      | Some a' =>
          Some ([FEv (EGoAway (N.land b 2147483647) (N.lor (shl32 c 16) d))],
                if 0 <? plen a' then mkA StGoAwayDebugData a' b c d else A0)
      end
  | StHeadersCallback =>
      Some ([FEv (EHeaders (N.shiftr b 31 =? 1) (N.land b 2147483647) (u8 (N.shiftr c 8)))],
            mkA StHeadersFragment a b c d)
  | StRstStreamCallback => Some ([FEv (ERstStream b)], A0)
  | StSettingsCallback => Some ([FEv (ESettings c b)], A0)
  | StWindowUpdateCallback => Some ([FEv (EWindowUpdate b)], A0)
  | StDead | StFinished => None
  | _ => Some ([], x)
  end.

(* Callbacks made when a byte is there, without consuming it. *)
Definition pre1 (x : A) : option (list fevent * A) :=
  match a_st x with
  | StPushPromiseCallback =>
      match adec (a_a x) 4 with
      | None => None
      | Some a' => Some ([FEv (EPushPromise (a_b x))],
                         mkA StHeadersFragment a' (a_b x) (a_c x) (a_d x))
      end
  | _ => Some ([], x)
  end.

Definition pre2 (x : A) : option (list fevent * A) :=
  match kind_of (a_st x) with
  | Some k =>
      match sub32 true (plen (a_a x)) (pads (a_a x)) with
      | None => None
      | Some n => if n =? 0 then Some ([FEnd k], after_data x (a_a x)) else Some ([], x)
      end
  | None =>
      match a_st x with
      | StFramePadding => if plen (a_a x) =? 0 then Some ([], A0) else Some ([], x)
      | _ => Some ([], x)
      end
  end.

(* One byte. *)
Definition eat (x : A) (v : byte) : option (list fevent * A) :=
  let '(mkA s a b c d) := x in
  let or_b s' n := Some ([], mkA s' a (N.lor b (shl32 v n)) c d) in
  let or_b0 s' := Some ([], mkA s' a (N.lor b v) c d) in
  let pad s' := match adec (N.lor a v) 1 with
                | None => None
                | Some a' => Some ([], mkA s' a' b c d)
                end in
  match s with
  | StFrameLength1 => Some ([], mkA StFrameLength2 (shl32 v 24) 0 0 0)
  | StFrameLength2 => Some ([], mkA StFrameLength3 (N.lor a (shl32 v 16)) b c d)
  | StFrameLength3 => Some ([], mkA StFrameType (N.lor a (shl32 v 8)) b c d)
  | StFrameType => Some ([], mkA StFrameFlags (N.lor a v) b c d)
  | StFrameFlags => Some ([], mkA StFrameStreamId1 a b v d)
  | StFrameStreamId1 => or_b StFrameStreamId2 24
  | StFrameStreamId2 => or_b StFrameStreamId3 16
  | StFrameStreamId3 => or_b StFrameStreamId4 8
  | StFrameStreamId4 => or_b0 StFrameFormatEnd
  | StFramePadding =>
      match adec a 1 with
      | None => None
      | Some a' => Some ([], if plen a' =? 0 then A0 else mkA s a' b c d)
      end
  | StDataPadLength => pad StDataData
  | StGoAwayStreamId1 => or_b StGoAwayStreamId2 24
  | StGoAwayStreamId2 => or_b StGoAwayStreamId3 16
  | StGoAwayStreamId3 => or_b StGoAwayStreamId4 8
  | StGoAwayStreamId4 => or_b0 StGoAwayErrorCode1
  | StGoAwayErrorCode1 => Some ([], mkA StGoAwayErrorCode2 a b (N.lor c (shl16 v 8)) d)
  | StGoAwayErrorCode2 => Some ([], mkA StGoAwayErrorCode3 a b (N.lor c v) d)
  | StGoAwayErrorCode3 => Some ([], mkA StGoAwayErrorCode4 a b c (N.lor d (shl16 v 8)))
  | StGoAwayErrorCode4 => Some ([], mkA StGoAwayCallback a b c (N.lor d v))
  | StHeadersPadLengthWithPriority => pad StHeadersStreamId1
  | StHeadersPadLengthWithoutPriority => pad StHeadersCallback
  | StHeadersStreamId1 => or_b StHeadersStreamId2 24
  | StHeadersStreamId2 => or_b StHeadersStreamId3 16
  | StHeadersStreamId3 => or_b StHeadersStreamId4 8
  | StHeadersStreamId4 => or_b0 StHeadersWeight
  | StHeadersWeight =>
      match adec a 5 with
      | None => None
      | Some a' => Some ([], mkA StHeadersCallback a' b (shl16 v 8) d)
      end
  | StPriorityStreamId1 => or_b StPriorityStreamId2 24
  | StPriorityStreamId2 => or_b StPriorityStreamId3 16
  | StPriorityStreamId3 => or_b StPriorityStreamId4 8
  | StPriorityStreamId4 => or_b0 StPriorityWeight
  | StPriorityWeight =>
      Some ([FEv (EPriority (N.shiftr b 31 =? 1) (N.land b 2147483647) v)], A0)
  | StPushPromisePadLength => pad StPushPromiseStreamId1
  | StPushPromiseStreamId1 => or_b StPushPromiseStreamId2 24
  | StPushPromiseStreamId2 => or_b StPushPromiseStreamId3 16
  | StPushPromiseStreamId3 => or_b StPushPromiseStreamId4 8
  | StPushPromiseStreamId4 => or_b0 StPushPromiseCallback
  | StRstStreamErrorCode1 => or_b StRstStreamErrorCode2 24
  | StRstStreamErrorCode2 => or_b StRstStreamErrorCode3 16
  | StRstStreamErrorCode3 => or_b StRstStreamErrorCode4 8
  | StRstStreamErrorCode4 => or_b0 StRstStreamCallback
  | StSettingsId1 => Some ([], mkA StSettingsId2 a b (N.lor c (shl16 v 8)) d)
  | StSettingsId2 => Some ([], mkA StSettingsValue1 a b (N.lor c v) d)
  | StSettingsValue1 => or_b StSettingsValue2 24
  | StSettingsValue2 => or_b StSettingsValue3 16
  | StSettingsValue3 => or_b StSettingsValue4 8
  | StSettingsValue4 => or_b0 StSettingsCallback
  | StUnsupportedPadLength => pad StUnsupportedData
  | StWindowUpdateIncrement1 => or_b StWindowUpdateIncrement2 24
  | StWindowUpdateIncrement2 => or_b StWindowUpdateIncrement3 16
  | StWindowUpdateIncrement3 => or_b StWindowUpdateIncrement4 8
  | StWindowUpdateIncrement4 => or_b0 StWindowUpdateCallback
  | StDataData | StGoAwayDebugData | StHeadersFragment | StPingData | StUnsupportedData =>
      match kind_of s, adec a 1 with
      | Some k, Some a' =>
          if plen a' =? pads a' then Some ([FByte k v; FEnd k], after_data x a')
          else Some ([FByte k v], mkA s a' b c d)
      | _, _ => None
      end
  | StFrameFormatEnd | StGoAwayCallback | StHeadersCallback | StPushPromiseCallback
  | StRstStreamCallback | StSettingsCallback | StWindowUpdateCallback
  | StDead | StFinished => None
  end.

(* Observations before those of a run. *)
Definition before (e : list fevent) (r : list fevent * option A) : list fevent * option A :=
  (e ++ fst r, snd r).

(* A run over a stream: the observations, and the state at its end (None: a
   length became negative). *)
Fixpoint aexec (x : A) (r : list byte) : list fevent * option A :=
  match post x with
  | None => ([], None)
  | Some (e, x1) =>
      before e
      match r with
      | [] => ([], Some x1)
      | v :: r' =>
          match pre1 x1 with
          | None => ([], None)
          | Some (e1, x2) =>
              before e1
              match pre2 x2 with
              | None => ([], None)
              | Some (e2, x3) =>
                  before e2
                  match eat x3 v with
                  | None => ([], None)
                  | Some (e3, x4) => before e3 (aexec x4 r')
                  end
              end
          end
      end
  end.

(* The states in the middle of a field that the parser reads wrongly when it is
   cut. *)
Definition bad (s : pstate) : bool :=
  match s with
  | StFrameStreamId2 | StFrameStreamId3 | StFrameStreamId4
  | StGoAwayStreamId2 | StGoAwayStreamId3 | StGoAwayStreamId4
  | StSettingsValue2 | StSettingsValue3 | StSettingsValue4 => true
  | _ => false
  end.

(* ------------------------------------------------------------------ *)
(* Composition                                                          *)
(* ------------------------------------------------------------------ *)

Lemma before_nil r : before [] r = r.
Proof. now destruct r. Qed.

Lemma before_before e e' r : before e (before e' r) = before (e ++ e') r.
Proof. unfold before. cbn [fst snd]. now rewrite app_assoc. Qed.

(* No callback is due. *)
Definition quiet (x : A) : Prop := post x = Some ([], x).

Lemma target_cases a c :
  In (target a c) [StDataPadLength; StDataData; StHeadersPadLengthWithPriority;
    StHeadersPadLengthWithoutPriority; StHeadersStreamId1; StHeadersFragment;
    StPriorityStreamId1; StRstStreamErrorCode1; StSettingsId1; StPushPromisePadLength;
    StPushPromiseStreamId1; StPingData; StGoAwayStreamId1; StWindowUpdateIncrement1;
    StUnsupportedPadLength; StUnsupportedData].
Proof.
  unfold target, frame_target.
  repeat match goal with |- context [match ?x with _ => _ end] => destruct x end;
    cbn [In]; tauto.
Qed.

Lemma target_quiet a b c d a' c' : quiet (mkA (target a' c') a b c d).
Proof.
  pose proof (target_cases a' c') as H. cbn [In] in H.
  repeat (destruct H as [<-|H]; [reflexivity|]). destruct H.
Qed.

(* (injection would compute in the numbers) *)
Lemma some_pair {X Y} (a c : X) (b d : Y) : Some (a, b) = Some (c, d) -> a = c /\ b = d.
Proof. intros H. injection H. auto. Qed.

Lemma post_quiet x e y : post x = Some (e, y) -> quiet y.
Proof.
  destruct x as [s a b c d]. unfold post.
  destruct s; intros H; try discriminate.
  10: { apply some_pair in H; destruct H as [<- <-]. apply target_quiet. }
  21: { destruct (adec a 8); [|discriminate]. apply some_pair in H; destruct H as [<- <-].
    now destruct (0 <? _). }
  all: apply some_pair in H; destruct H as [<- <-]; reflexivity.
Qed.

Lemma aexec_post x e y r : post x = Some (e, y) -> aexec x r = before e (aexec y r).
Proof.
  intros H. pose proof (post_quiet _ _ _ H) as Q. unfold quiet in Q.
  destruct r; cbn [aexec]; rewrite H, Q, before_nil; reflexivity.
Qed.

(* A state from which the next byte is consumed at once. *)
Definition ready (x : A) : Prop :=
  quiet x /\ pre1 x = Some ([], x) /\ pre2 x = Some ([], x).

Lemma aexec_eat x v r e y :
  ready x -> eat x v = Some (e, y) -> aexec x (v :: r) = before e (aexec y r).
Proof.
  intros (Q & P1 & P2) E. cbn [aexec]. unfold quiet in Q.
  now rewrite Q, P1, P2, E, !before_nil.
Qed.

Lemma aexec_nil x : quiet x -> aexec x [] = ([], Some x).
Proof. unfold quiet. intros Q. cbn [aexec]. now rewrite Q. Qed.

Lemma aexec_pre1 x v r e y :
  quiet x -> pre1 x = Some (e, y) -> quiet y -> pre1 y = Some ([], y) ->
  aexec x (v :: r) = before e (aexec y (v :: r)).
Proof.
  unfold quiet. intros Q P Q' P'. cbn [aexec]. now rewrite Q, Q', P, P', !before_nil.
Qed.

Lemma aexec_pre2 x v r e y :
  quiet x -> pre1 x = Some ([], x) -> pre2 x = Some (e, y) -> ready y ->
  aexec x (v :: r) = before e (aexec y (v :: r)).
Proof.
  unfold ready, quiet. intros Q P P2 (Q' & P' & P2'). cbn [aexec].
  now rewrite Q, Q', P, P', P2, P2', !before_nil.
Qed.

(* Feeding in two parts. *)
Lemma aexec_app s : forall x t,
  aexec x (s ++ t) =
  match snd (aexec x s) with
  | None => aexec x s
  | Some y => before (fst (aexec x s)) (aexec y t)
  end.
Proof.
  induction s as [|v s IH]; intros x t.
  - cbn [app]. destruct (post x) as [[e y]|] eqn:P.
    + rewrite (aexec_post _ _ _ t P), (aexec_post _ _ _ [] P).
      rewrite (aexec_nil y) by exact (post_quiet _ _ _ P).
      cbn [before fst snd]. now rewrite app_nil_r.
    + destruct t; cbn [aexec]; rewrite P; reflexivity.
  - cbn [app aexec].
    destruct (post x) as [[e x1]|]; [|reflexivity].
    destruct (pre1 x1) as [[e1 x2]|]; [|reflexivity].
    destruct (pre2 x2) as [[e2 x3]|]; [|reflexivity].
    destruct (eat x3 v) as [[e3 x4]|]; [|reflexivity].
    rewrite IH. rewrite !before_before.
    set (y := aexec x4 s). destruct y as [ee [z|]]; cbn [before fst snd]; [|reflexivity].
    unfold before. cbn [fst snd]. now rewrite !app_assoc.
Qed.

(* ------------------------------------------------------------------ *)
(* Arithmetic                                                           *)
(* ------------------------------------------------------------------ *)

(* payload length and pad length packed *)
Definition enc (l z : N) : N := l * 256 + z.

Lemma plen_enc l z : z < 256 -> plen (enc l z) = l.
Proof.
  intros H. unfold plen, enc. rewrite N.shiftr_div_pow2. change (2 ^ 8) with 256.
  rewrite N.div_add_l by lia. rewrite N.div_small by lia. lia.
Qed.

Lemma land255 a : N.land a 255 = a mod 256.
Proof. change 255 with (N.ones 8). rewrite N.land_ones. reflexivity. Qed.

Lemma pads_enc l z : z < 256 -> pads (enc l z) = z.
Proof.
  intros H. unfold pads, enc. rewrite land255, N.add_comm, N.mod_add by lia.
  now apply N.mod_small.
Qed.

Lemma enc_all a : a = enc (plen a) (pads a).
Proof.
  unfold enc, plen, pads. rewrite land255, N.shiftr_div_pow2. change (2 ^ 8) with 256.
  rewrite N.mul_comm. apply N.div_mod. lia.
Qed.

Lemma pads_lt a : pads a < 256.
Proof. unfold pads. rewrite land255. now apply N.mod_lt. Qed.

Lemma plen_lt a : a < 2 ^ 32 -> plen a < 2 ^ 24.
Proof.
  intros H. unfold plen. rewrite N.shiftr_div_pow2. apply N.div_lt_upper_bound; [discriminate|].
  exact H.
Qed.

Lemma lor_add_small l z n : z < 2 ^ n -> N.lor z (l * 2 ^ n) = l * 2 ^ n + z.
Proof.
  intros H. rewrite N.lor_comm. symmetry. rewrite <- N.shiftl_mul_pow2.
  assert (N.land (N.shiftl l n) z = 0) as D.
  { apply N.bits_inj_0. intros j. rewrite N.land_spec.
    destruct (N.lt_ge_cases j n) as [J|J].
    - rewrite N.shiftl_spec_low by assumption. reflexivity.
    - rewrite <- (N.mod_small z (2 ^ n)) by assumption.
      rewrite N.mod_pow2_bits_high by assumption. apply andb_false_r. }
  rewrite N.add_nocarry_lxor by exact D. now apply N.lxor_lor.
Qed.

Lemma enc_lor l z : l < 2 ^ 24 -> z < 256 -> N.lor z (shl32 l 8) = enc l z.
Proof.
  intros L Z. unfold shl32, u32, enc. rewrite N.shiftl_mul_pow2.
  rewrite N.mod_small.
  - now apply (lor_add_small l z 8).
  - change (2 ^ 32) with (2 ^ 24 * 2 ^ 8). apply N.mul_lt_mono_pos_r; [reflexivity|exact L].
Qed.

Lemma sub32_ok chk a b : b <= a -> sub32 chk a b = Some (a - b).
Proof. intros H. unfold sub32. apply N.leb_le in H. now rewrite H. Qed.

Lemma adec_enc l z n : l < 2 ^ 24 -> z < 256 -> n <= l -> adec (enc l z) n = Some (enc (l - n) z).
Proof.
  intros L Z H. unfold adec. rewrite plen_enc, pads_enc by assumption.
  rewrite sub32_ok by assumption. f_equal. apply enc_lor; [lia|assumption].
Qed.

Lemma enc_lt l z : l < 2 ^ 24 -> z < 256 -> enc l z < 2 ^ 32.
Proof. unfold enc. intros. change (2 ^ 32) with (2 ^ 24 * 256). nia. Qed.

Lemma lor_lt a b n : a < 2 ^ n -> b < 2 ^ n -> N.lor a b < 2 ^ n.
Proof.
  intros H1 H2. destruct (N.eq_dec a 0) as [->|Na]; [now rewrite N.lor_0_l|].
  destruct (N.eq_dec b 0) as [->|Nb]; [now rewrite N.lor_0_r|].
  apply N.log2_lt_pow2.
  - apply N.neq_0_lt_0. intros E. apply N.lor_eq_0_iff in E. tauto.
  - rewrite N.log2_lor. apply N.max_lub_lt; apply N.log2_lt_pow2; lia.
Qed.

Lemma shl32_lt v n : shl32 v n < 2 ^ 32.
Proof. unfold shl32, u32. now apply N.mod_lt. Qed.
