(* The parser follows the automaton of Http2FullSem.v. *)

From Coq Require Import NArith List Bool Arith String Lia.
From Verif Require Import Bytes ByteStream Http2Model Http2Spec Http2Wp Http2Term Http2Sem Http2Sim
  Http2Over Http2Run Http2FullSem.
Import ListNotations.
Local Open Scope N_scope.

(* States that are never entered. *)
Definition reached (s : pstate) : bool :=
  match s with StGoAwayStreamId4 | StSettingsValue4 => false | _ => true end.

(* The states in which no byte of the stream identifier has been read. *)
Definition early (s : pstate) : bool :=
  match s with
  | StFrameLength2 | StFrameLength3 | StFrameType | StFrameFlags | StFrameStreamId1 => true
  | _ => false
  end.

Definition sane (p : parser) : Prop :=
  reached (state_fn p) = true /\ (early (state_fn p) = true -> bit_data32b p = 0).

(* Small enough for the lengths of an unchecked build. *)
Definition small (chk : bool) (r : list byte) : Prop :=
  chk = false -> N.of_nat (List.length r) <= 2 ^ 24 - 256.

(* r is the rest of a piece, t what follows it. *)
Definition piece (cut : nat -> bool) (r t : list byte) : Prop :=
  cut (List.length t) = true /\
  forall k, (List.length t < k)%nat -> (k < List.length r + List.length t)%nat -> cut k = false.

Definition fsim_post (chk : bool) (cut : nat -> bool) (t : list byte) (m m' : mach) (o : outcome) : Prop :=
  match o with
  | Faulted FOverflow =>
      ml m' = ml m /\ fexec chk cut (fabs (mp m)) (crest (mc m) ++ t) = ([], None)
  | Continue | Exit (SCallback _) | Exit (SEos _) =>
      exists new, ml m' = ml m ++ new /\
        fexec chk cut (fabs (mp m)) (crest (mc m) ++ t) =
          bef (flat new) (fexec chk cut (fabs (mp m')) (crest (mc m') ++ t)) /\
        sane (mp m') /\ bit_data32a (mp m') < 2 ^ 32
  | _ => False
  end.

Lemma fabs_kind s k a b c d n st :
  kind_of s = Some k -> fabs (Parser a b c d n st s) = Run (mkA s a b c d).
Proof. destruct s; cbn; try discriminate; reflexivity. Qed.

Lemma kind_sane s k a b c d n st : kind_of s = Some k -> sane (Parser a b c d n st s).
Proof. destruct s; cbn; try discriminate; intros _; (split; [reflexivity|discriminate]). Qed.

(* How many bytes of data are to come. *)
Lemma len24_of chk l z : l < 2 ^ 24 -> z < 256 -> (chk = true -> z <= l) ->
  exists n, n < 2 ^ 24 /\ fits chk n z /\ l = len24 n z /\ (z <= l -> n = l - z) /\ (l < z -> n = 2 ^ 24 + l - z).
Proof.
  intros L Z H. assert (256 < 2 ^ 24) as T by reflexivity.
  destruct (N.le_gt_cases z l) as [C|C].
  - exists (l - z). split; [lia|]. unfold fits, len24. split; [lia|].
    destruct (N.ltb_spec (l - z + z) (2 ^ 24)); [|lia]. repeat split; intros; lia.
  - exists (2 ^ 24 + l - z). split; [lia|]. unfold fits, len24.
    split; [intros E; specialize (H E); lia|].
    destruct (N.ltb_spec (2 ^ 24 + l - z + z) (2 ^ 24)); [lia|]. repeat split; intros; lia.
Qed.

Lemma data_fsim chk cut t h a b c d n st s k cb mk r l :
  kind_of s = Some k -> a < 2 ^ 32 -> r <> [] -> small chk r ->
  wp (parse_payload_data chk h (Mach (Parser a b c d n st s) (Ctx cb mk [] r) l) k)
     (fsim_post chk cut t (Mach (Parser a b c d n st s) (Ctx cb mk [] r) l)).
Proof.
  intros K A32 NE S.
  pose proof (pads_lt a) as Z. pose proof (plen_lt a A32) as L.
  assert (2 ^ 24 < 2 ^ 32) as LT by reflexivity. assert (256 < 2 ^ 24) as LT2 by reflexivity.
  apply wp_payload; cbn [bit_data32a]; change (N.shiftr a 8) with (plen a);
    change (N.land a 255) with (pads a).
  - (* overflow *)
    intros N. cbn [fsim_post]. split; [reflexivity|]. cbn [mp mc crest].
    rewrite (fabs_kind _ _ _ _ _ _ _ _ K). destruct r as [|v r]; [congruence|]. cbn [app fexec].
    pose proof (fkind_quiet chk _ _ a b c d K) as Q. unfold fquiet in Q.
    pose proof (fkind_plain _ _ a b c d K) as C. unfold plain in C. rewrite Q, C.
    assert (forall (X : bool) (y : F), (if X then y else y) = y) as -> by now intros [].
    rewrite (fkind_pre1 _ _ _ _ _ _ _ K), (fkind_pre2 _ _ _ _ _ _ _ K), N. reflexivity.
  - (* all *)
    intros m v x r' E1 -> -> E2. cbv zeta.
    assert (pads a <= plen a) as P.
    { destruct (N.le_gt_cases (pads a) (plen a)) as [C|C]; [exact C|exfalso].
      unfold sub32 in E1. destruct (N.leb_spec (pads a) (plen a)); [lia|].
      destruct chk; [discriminate|]. apply some_eq in E1. rewrite u32_small in E1 by lia.
      specialize (S eq_refl). rewrite app_length in S. lia. }
    apply sub32_some in E1; [|exact P].
    apply sub32_some in E2; [|lia]. assert (v = pads a) as -> by lia.
    rewrite enc_lor by (assumption || lia).
    assert (fexec chk cut (Run (mkA s a b c d)) ((x ++ r') ++ t) =
            bef (map (FByte k) x ++ [FEnd k]) (fexec chk cut (fdone (pads a) b c d) (r' ++ t))) as E.
    { destruct (len24_of chk (plen a) (pads a) L Z (fun _ => P)) as (q & Q1 & Q2 & Q3 & Q4 & _).
      rewrite (enc_all a) at 1. rewrite Q3, <- app_assoc.
      apply fexec_data_end; try assumption; [specialize (Q4 P); lia|].
      rewrite app_assoc. intros X. apply app_eq_nil in X. now apply NE. }
    unfold p_set_state, p_32a. cbn [bit_data32a bit_data32b bit_data16a bit_data16b byte_count].
    change (N.land (enc (pads a) (pads a)) 255) with (pads (enc (pads a) (pads a))).
    rewrite pads_enc by assumption.
    split; intros _; exists [EData k x true];
      (split; [reflexivity|]); rewrite flat_bytes_end; cbn [mp mc crest];
      rewrite (fabs_kind _ _ _ _ _ _ _ _ K), E; unfold fdone, done; cbn [state_fn bit_data32a];
      (split; [destruct (0 <? pads a); reflexivity|]);
      (split; [destruct (0 <? pads a); (split; [reflexivity|discriminate])|]);
      apply enc_lt32; (assumption || lia).
  - (* all, and an overflow: impossible *)
    intros m x r' E1 Er E3 E2. exfalso.
    assert (pads a <= plen a) as P.
    { destruct (N.le_gt_cases (pads a) (plen a)) as [C|C]; [exact C|exfalso].
      unfold sub32 in E1. destruct (N.leb_spec (pads a) (plen a)); [lia|].
      destruct chk; [discriminate|]. unfold sub32 in E2. destruct (m <=? plen a); discriminate. }
    apply sub32_some in E1; [|exact P]. apply sub32_none in E2. lia.
  - intros m E1 H E2. exfalso.
    assert (chk = true) as -> by (apply Http2Term.sub32_none in E2; exact E2).
    destruct (N.le_gt_cases (pads a) (plen a)) as [P|P].
    + apply sub32_some in E1; [|exact P]. apply sub32_none in E2. rewrite u32_small in E2 by lia. lia.
    + unfold sub32 in E1. destruct (N.leb_spec (pads a) (plen a)); [lia|discriminate].
  - (* some *)
    intros m v E1 H E2. cbv zeta.
    assert (chk = true -> pads a <= plen a) as P.
    { intros ->. unfold sub32 in E1. destruct (N.leb_spec (pads a) (plen a)); [assumption|discriminate]. }
    destruct (len24_of chk (plen a) (pads a) L Z P) as (q & Q1 & Q2 & Q3 & Q4 & Q5).
    assert (N.of_nat (List.length r) < q) as Lr.
    { destruct (N.le_gt_cases (pads a) (plen a)) as [C|C].
      - apply sub32_some in E1; [|exact C]. rewrite (Q4 C). lia.
      - rewrite (Q5 C). destruct chk; [specialize (P eq_refl); lia|]. specialize (S eq_refl). lia. }
    assert (N.lor (pads a) (shl32 v 8) = enc (len24 (q - N.of_nat (List.length r)) (pads a)) (pads a)) as Ev.
    { rewrite u32_small in E2 by lia. 
      assert (dec chk (enc (plen a) (pads a)) (N.of_nat (List.length r)) =
              Some (N.lor (pads a) (shl32 v 8))) as D.
      { unfold dec. rewrite plen_enc, pads_enc by assumption. now rewrite E2. }
      apply some_eq. rewrite <- D. clear D. 
      destruct (N.le_gt_cases (N.of_nat (List.length r)) (plen a)) as [C|C].
      - rewrite dec_enc by assumption. do 2 f_equal. rewrite Q3. unfold len24 in *. 
        destruct (N.ltb_spec (q + pads a) (2 ^ 24)) as [U|U];
        destruct (N.ltb_spec (q - N.of_nat (List.length r) + pads a) (2 ^ 24)) as [V|V]; lia.
      - destruct chk.
        + exfalso. unfold sub32 in E2. destruct (N.leb_spec (N.of_nat (List.length r)) (plen a)); [lia|discriminate].
        + rewrite dec_wrap by (assumption || lia). do 2 f_equal. rewrite Q3 in *. unfold len24 in *. 
          destruct (N.ltb_spec (q + pads a) (2 ^ 24)) as [U|U];
          destruct (N.ltb_spec (q - N.of_nat (List.length r) + pads a) (2 ^ 24)) as [V|V]; lia. }
    rewrite Ev.
    assert (fexec chk cut (Run (mkA s a b c d)) (r ++ t) =
            bef (map (FByte k) r)
              (fexec chk cut (Run (mkA s (enc (len24 (q - N.of_nat (List.length r)) (pads a)) (pads a)) b c d)) t)) as E.
    { rewrite (enc_all a) at 1. rewrite Q3. apply fexec_data; assumption. }
    unfold p_32a. cbn [bit_data32a bit_data32b bit_data16a bit_data16b byte_count state state_fn app].
    split; intros _; exists [EData k r false];
      (split; [reflexivity|]); rewrite flat_bytes; cbn [mp mc crest app];
      rewrite !(fabs_kind _ _ _ _ _ _ _ _ K), E; cbn [state_fn bit_data32a];
      (split; [reflexivity|]);
      (split; [exact (kind_sane _ _ _ _ _ _ _ _ K)|]); apply enc_lt32; try assumption;
      apply len24_lt; (assumption || lia).
Qed.

Lemma pad_fsim chk cut t a b c d n st cb mk r l :
  a < 2 ^ 32 ->
  wp (frame_padding chk (Mach (Parser a b c d n st StFramePadding) (Ctx cb mk [] r) l))
     (fsim_post chk cut t (Mach (Parser a b c d n st StFramePadding) (Ctx cb mk [] r) l)).
Proof.
  intros A32.
  pose proof (pads_lt a) as Z. pose proof (plen_lt a A32) as L.
  assert (2 ^ 24 < 2 ^ 32) as LT by reflexivity.
  apply wp_padding; cbn [bit_data32a]; change (N.shiftr a 8) with (plen a);
    change (N.land a 255) with (pads a).
  - intros ->. exists []. cbn [ml mp mc crest]. rewrite app_nil_r.
    split; [reflexivity|]. rewrite bef_nil. split; [reflexivity|].
    split; [split; [reflexivity|discriminate]|exact A32].
  - intros x r' -> NE E. exists []. cbn [ml mp mc crest]. rewrite app_nil_r.
    split; [reflexivity|]. rewrite bef_nil. split; [|split; [split; [reflexivity|discriminate]|exact A32]].
    unfold fabs. cbn [state_fn p_set_state bit_data32a bit_data32b bit_data16a bit_data16b].
    rewrite (enc_all a), <- app_assoc. apply fexec_pad_end; try assumption.
    rewrite app_assoc. intros X. apply app_eq_nil in X. now apply NE.
  - intros H NE E. apply sub32_none in E. rewrite u32_small in E by lia. lia.
  - intros v H NE E. rewrite u32_small in E by lia. apply sub32_some in E; [|lia]. subst v.
    rewrite enc_lor by (assumption || lia).
    exists []. cbn [ml mp mc crest app]. rewrite app_nil_r.
    split; [reflexivity|]. rewrite bef_nil.
    unfold fabs, p_32a. cbn [state_fn p_set_state bit_data32a bit_data32b bit_data16a bit_data16b].
    split; [|split; [split; [reflexivity|discriminate]|apply enc_lt32; (assumption || lia)]].
    rewrite (enc_all a) at 1. now apply fexec_pad.
Qed.

Lemma target_fabs a b c d a' c' n s :
  fabs (Parser a b c d n s (target a' c')) = Run (mkA (target a' c') a b c d).
Proof.
  pose proof (target_cases a' c') as H. cbn [In] in H. unfold fabs. cbn [state_fn].
  repeat (destruct H as [<-|H]; [reflexivity|]). destruct H.
Qed.

Lemma target_sane a b c d n st a' c' : sane (Parser a b c d n st (target a' c')).
Proof.
  pose proof (target_cases a' c') as H. cbn [In] in H. unfold sane. cbn [state_fn bit_data32b].
  repeat (destruct H as [<-|H]; [split; [reflexivity|discriminate]|]). destruct H.
Qed.

(* The last byte of two read separately. *)
Lemma low16 b0 b1 b2 : b2 < 256 ->
  N.lor (N.lor (shl32 b0 24) (shl32 b1 16)) (shl32 b2 8) mod 2 ^ 16 = shl32 b2 8.
Proof.
  intros H. apply N.bits_inj. intros n.
  assert (shl32 b2 8 < 2 ^ 16) as L.
  { unfold shl32, u32. rewrite N.shiftl_mul_pow2. change (2 ^ 16) with (256 * 2 ^ 8).
    rewrite N.mod_small.
    - apply N.mul_lt_mono_pos_r; [reflexivity|exact H].
    - apply N.lt_trans with (256 * 2 ^ 8); [apply N.mul_lt_mono_pos_r; [reflexivity|exact H]|reflexivity]. }
  destruct (N.lt_ge_cases n 16) as [C|C].
  - rewrite N.mod_pow2_bits_low by exact C. rewrite !N.lor_spec.
    assert (forall v k, 16 <= k -> k <= 32 -> N.testbit (shl32 v k) n = false) as X.
    { intros v k K K2. unfold shl32, u32. destruct (N.lt_ge_cases n 32) as [D|D]; [|lia].
      rewrite N.mod_pow2_bits_low by exact D. apply N.shiftl_spec_low. lia. }
    rewrite !X by (discriminate). reflexivity.
  - rewrite N.mod_pow2_bits_high by exact C. 
    rewrite <- (N.mod_small (shl32 b2 8) (2 ^ 16)) by exact L. now rewrite N.mod_pow2_bits_high.
Qed.

Ltac fready := split; [|split]; reflexivity.
(* one byte that is not the first of the piece *)
Ltac uncut := first [right; reflexivity
  | left; match goal with H : forall k, _ -> _ -> ?cut k = false |- ?cut _ = false =>
      apply H; cbn [List.length app]; rewrite ?app_length; cbn [List.length]; lia end].
Ltac feat1 := erewrite fexec_eat; [|fready|uncut|reflexivity].

Lemma dec_eq chk a n : dec chk a n =
  match sub32 chk (N.shiftr a 8) n with
  | Some v => Some (N.lor (N.land a 255) (shl32 v 8))
  | None => None
  end.
Proof. reflexivity. Qed.

Ltac sane := split; [reflexivity|first [discriminate | intros _; reflexivity | intros _; assumption]].

(* Fields that are read wrongly in pieces. *)
Lemma id_pieces chk cut a c d v r t :
  (List.length (v :: r) < 4)%nat -> bytes r -> cut (List.length t) = true ->
  (forall k, (List.length t < k)%nat -> (k < List.length (v :: r) + List.length t)%nat -> cut k = false) ->
  fexec chk cut (Run (mkA StFrameStreamId1 a 0 c d)) (v :: r ++ t) =
  fexec chk cut (Low (mkA StFrameStreamId2 a 0 c d)) (r ++ t).
Proof.
  intros L B Ce Ci. destruct r as [|v1 [|v2 [|v3 r]]]; cbn [List.length] in L; try lia; cbn [app] in *.
  - feat1. rewrite bef_nil, fexec_cut by (assumption || reflexivity). reflexivity.
  - do 2 feat1. rewrite bef_bef. cbn [app]. rewrite bef_nil, fexec_cut by (assumption || reflexivity).
    feat1. now rewrite bef_nil.
  - do 3 feat1. rewrite !bef_bef. cbn [app]. rewrite bef_nil, fexec_cut by (assumption || reflexivity).
    cbn [fcut]. rewrite N.lor_0_l, low16 by lt32.
    do 2 feat1. rewrite !bef_bef. cbn [app]. now rewrite bef_nil.
Qed.

Lemma go_away_pieces chk cut a b c d v r t :
  (List.length (v :: r) < 4)%nat -> cut (List.length t) = true ->
  (forall k, (List.length t < k)%nat -> (k < List.length (v :: r) + List.length t)%nat -> cut k = false) ->
  fexec chk cut (Run (mkA StGoAwayStreamId1 a b c d)) (v :: r ++ t) = fexec chk cut (Stuck StGoAwayStreamId2) (r ++ t).
Proof.
  intros L Ce Ci. rewrite stuck_exec.
  destruct r as [|v1 [|v2 [|v3 r]]]; cbn [List.length] in L; try lia; cbn [app] in *;
    repeat feat1; rewrite ?bef_bef; cbn [app]; rewrite bef_nil, fexec_cut by (assumption || reflexivity);
    cbn [fcut]; rewrite stuck_exec; destruct t; reflexivity.
Qed.

Lemma setting_pieces chk cut a b c d v r t :
  (List.length (v :: r) < 4)%nat -> cut (List.length t) = true ->
  (forall k, (List.length t < k)%nat -> (k < List.length (v :: r) + List.length t)%nat -> cut k = false) ->
  fexec chk cut (Run (mkA StSettingsValue1 a b c d)) (v :: r ++ t) = fexec chk cut (Stuck StSettingsValue2) (r ++ t).
Proof.
  intros L Ce Ci. rewrite stuck_exec.
  destruct r as [|v1 [|v2 [|v3 r]]]; cbn [List.length] in L; try lia; cbn [app] in *;
    repeat feat1; rewrite ?bef_bef; cbn [app]; rewrite bef_nil, fexec_cut by (assumption || reflexivity);
    cbn [fcut]; rewrite stuck_exec; destruct t; reflexivity.
Qed.

Lemma run_fn_fsim chk cut t h m :
  bit_data32a (mp m) < 2 ^ 32 -> bytes (crest (mc m)) -> live (state_fn (mp m)) = true ->
  sane (mp m) -> cslice (mc m) = [] -> small chk (crest (mc m)) ->
  piece cut (crest (mc m)) t ->
  wp (run_fn chk h m) (fsim_post chk cut t m).
Proof.
  destruct m as [p [cb mk sl r] l]. cbn [mp mc ml crest cslice].
  intros A32 B Lv [Rc Rb] -> S [Ce Ci].
  destruct p as [a b c d n st fn]. cbn [bit_data32a bit_data32b state_fn] in *.
  unfold run_fn. cbn [mp state_fn].
  destruct fn eqn:Efn; try discriminate Lv; try discriminate Rc; cbn [early] in Rb;
    try specialize (Rb eq_refl); unfold_state.
  (* data *)
  all: try solve [apply wp_exit_if_eos;
    [intros ->; exists []; rewrite app_nil_r; split; [reflexivity|];
       rewrite bef_nil; split; [reflexivity|]; split; [split; [reflexivity|discriminate]|assumption]
    |intros b0 r' ->; apply data_fsim; [reflexivity|assumption|discriminate|exact S]]].
  all: try exact (pad_fsim chk cut t a b c d n st cb mk r l A32).
  all: wp_all.
  all: unfold fsim_post; cbv zeta.
  all: cbn [mp mc ml crest cslice cmark cbyte state state_fn p_set_state p_32a p_32b p_16a p_16b
            with_c with_p bs_jump reset_bit_data bit_data32a bit_data32b bit_data16a bit_data16b app].
  all: try (match goal with
       |- context [fabs (Parser ?a ?b ?c ?d ?n ?s StFrameLength1)] =>
         change (fabs (Parser a b c d n s StFrameLength1)) with F0 in * end).
  (* nothing read *)
  all: try solve [exists []; rewrite app_nil_r; split; [reflexivity|];
    split; [now rewrite bef_nil|]; split; [sane|assumption]].
  (* bytes of fixed fields *)
  all: try solve [exists []; rewrite app_nil_r; split; [reflexivity|];
    split; [repeat feat1; rewrite ?bef_bef; reflexivity|]; split; [sane|]; lt32].
  all: try solve [rewrite !N.lor_0_l; exists []; rewrite app_nil_r; split; [reflexivity|];
    split; [repeat feat1; rewrite ?bef_bef; reflexivity|]; split; [sane|]; lt32].
  (* callbacks *)
  all: try solve [eexists; split; [reflexivity|];
     cbn [fabs state_fn bit_data32a bit_data32b bit_data16a bit_data16b];
     split; [erewrite fexec_post by reflexivity; reflexivity|split; [sane|assumption]]].
  (* lengths *)
  all: try match goal with H : sub32 _ (N.shiftr (bit_data32a _) 8) _ = _ |- _ =>
         cbn [p_32a p_16a bit_data32a] in H end.
  all: try match goal with H : sub32 _ (N.shiftr ?a 8) ?k = _ |- _ =>
         assert (dec chk a k = match sub32 chk (N.shiftr a 8) k with
           | Some v => Some (N.lor (N.land a 255) (shl32 v 8)) | None => None end) as D by exact eq_refl;
         rewrite H in D; cbv iota in D end.
  all: cbn [fabs state_fn bit_data32a bit_data32b bit_data16a bit_data16b].
  all: try solve [match goal with
       | D : dec _ _ _ = None |- _ =>
         split; [reflexivity|];
         first [cbn [fexec fpost run post fcut fpre1 fpre2 a_st a_a kind_of feat];
                repeat match goal with |- context [if ?C (List.length ?x) then _ else _] => destruct (C (List.length x)) end;
                cbn [fexec fpost run post fcut fpre1 fpre2 a_st a_a kind_of feat]; rewrite D; reflexivity
           | destruct r; cbn [app]; [destruct t|]; cbn [fexec fpost run]; rewrite D; reflexivity ]
       end].
  all: try solve [eexists; split; [reflexivity|];
    rewrite target_eq; cbn [mp bit_data32a bit_data16a];
    split; [|split; [apply target_sane|apply land_lt; assumption]];
    unfold p_32b, p_32a, p_16a, p_set_state;
    cbn [bit_data32a bit_data32b bit_data16a bit_data16b byte_count state state_fn];
    rewrite target_fabs;
    cbn [fabs bit_data32a bit_data32b bit_data16a bit_data16b byte_count state state_fn];
    erewrite fexec_post by (cbn [fpost run post]; exact eq_refl); exact eq_refl].
  all: try solve [match goal with D : dec _ _ _ = Some _ |- _ =>
    exists []; rewrite app_nil_r;
    (split; [reflexivity|]) ;
    (split; [erewrite fexec_eat; [|fready|right; reflexivity|unfold feat; rewrite D; reflexivity]; reflexivity|]);
    split; [sane|] end; lt32].
  all: try solve [match goal with D : dec _ _ _ = Some _ |- _ =>
    eexists; split; [reflexivity|];
    split; [erewrite fexec_pre1; [|reflexivity|reflexivity|unfold fpre1; rewrite D; reflexivity
      |reflexivity|reflexivity|reflexivity]; reflexivity|split; [sane|]] end; lt32].
  all: try solve [match goal with D : dec _ _ _ = Some _ |- _ =>
    eexists; split; [reflexivity|];
    split; [erewrite fexec_post by (cbn [fpost]; rewrite D; reflexivity); unfold plen;
       destruct (0 <? _); reflexivity |split; [destruct (0 <? _); sane|]] end; lt32].
  (* fragile fields *)
  - boolP. subst b. exists []. rewrite app_nil_r. split; [reflexivity|].
    split; [|split; [sane|lt32]]. change (flat []) with (@nil fevent). rewrite bef_nil.
    apply Forall_cons_iff in B. destruct B as [_ B]. now apply id_pieces.
  - boolP. exists []. rewrite app_nil_r. split; [reflexivity|].
    split; [|split; [sane|lt32]]. change (flat []) with (@nil fevent). rewrite bef_nil.
    now apply go_away_pieces.
  - eexists. split; [reflexivity|]. split; [|split; [sane|lt32]].
    erewrite fexec_eat; [|fready|right; reflexivity|cbn [feat run eat]; exact eq_refl]. exact eq_refl.
  - eexists. split; [reflexivity|]. split; [|split; [sane|lt32]].
    erewrite fexec_eat; [|fready|right; reflexivity|cbn [feat run eat]; exact eq_refl]. exact eq_refl.
  - boolP. exists []. rewrite app_nil_r. split; [reflexivity|].
    split; [|split; [sane|lt32]]. change (flat []) with (@nil fevent). rewrite bef_nil.
    now apply setting_pieces.
Qed.
