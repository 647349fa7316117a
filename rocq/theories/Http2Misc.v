(* Facts about every step that do not need the automaton: what is counted, what
   is reported, and when a checked build overflows. *)

From Coq Require Import NArith ZArith List Bool Arith String Lia.
From Verif Require Import Bytes ByteStream Http2Model Http2Spec Http2Wp Http2Term Http2Sem Http2Sim Http2Run Http2Frame.
Import ListNotations.
Local Open Scope N_scope.

(* The parser counts only at the end of a call; identifiers have 31 bits. *)
Definition misc_post (m m' : mach) (o : outcome) : Prop :=
  byte_count (mp m') = byte_count (mp m) /\
  exists new, ml m' = ml m ++ new /\ Forall id31 new.

Lemma land31 v : N.land v 2147483647 < 2 ^ 31.
Proof. change 2147483647 with (N.ones 31). rewrite N.land_ones. now apply N.mod_lt. Qed.

Lemma run_fn_misc chk h m : wp (run_fn chk h m) (misc_post m).
Proof.
  destruct m as [p [cb mk sl r] l]. unfold run_fn. cbn [mp].
  destruct (state_fn p) eqn:Efn; unfold_state.
  all: wp_all.
  all: unfold misc_post; cbv zeta; cbn [mp mc ml];
    (split; [exact eq_refl|]).
  all: match goal with
       | |- exists new, ?l = ?l ++ new /\ _ => exists []; split; [exact (eq_sym (app_nil_r l))|constructor]
       | |- exists new, ?l ++ [?e] = ?l ++ new /\ _ =>
           exists [e]; split; [exact eq_refl|]; constructor; [|constructor]; cbn [id31];
           first [exact I|apply land31]
       end.
Qed.

(* ------------------------------------------------------------------ *)
(* Overflow                                                             *)
(* ------------------------------------------------------------------ *)

Lemma last_header_app l e :
  last_header (l ++ [e]) =
  match e with EFrameFormat len t f _ => Some (len, t, f) | _ => last_header l end.
Proof.
  induction l as [|x l IH]; cbn [last_header app]; [destruct e; reflexivity|].
  rewrite IH. destruct e; reflexivity.
Qed.

(* What is known in state s of a checked build about the word a, if the last
   header was (len, t, f). *)
Definition acct (s : pstate) (a len t f : N) : Prop :=
  let pp := if has_pad t f then 1 else 0 in
  match s with
  | StDataPadLength | StHeadersPadLengthWithoutPriority | StUnsupportedPadLength =>
      has_pad t f = true /\ a = enc len 0 /\ fixed_part t f = 0
  | StHeadersPadLengthWithPriority => has_pad t f = true /\ a = enc len 0 /\ fixed_part t f = 5
  | StPushPromisePadLength => has_pad t f = true /\ a = enc len 0 /\ fixed_part t f = 4
  | StHeadersStreamId1 | StHeadersStreamId2 | StHeadersStreamId3 | StHeadersStreamId4
  | StHeadersWeight =>
      fixed_part t f = 5 /\ plen a + pp = len /\ (pp = 0 -> pads a = 0)
  | StPushPromiseStreamId1 | StPushPromiseStreamId2 | StPushPromiseStreamId3
  | StPushPromiseStreamId4 | StPushPromiseCallback =>
      fixed_part t f = 4 /\ plen a + pp = len /\ (pp = 0 -> pads a = 0)
  | StGoAwayStreamId1 | StGoAwayStreamId2 | StGoAwayStreamId3 | StGoAwayStreamId4
  | StGoAwayErrorCode1 | StGoAwayErrorCode2 | StGoAwayErrorCode3 | StGoAwayErrorCode4
  | StGoAwayCallback =>
      fixed_part t f = 8 /\ has_pad t f = false /\ a = enc len 0
  | StHeadersCallback
  | StDataData | StGoAwayDebugData | StHeadersFragment | StPingData | StUnsupportedData =>
      pads a <= plen a \/ (plen a + pp + fixed_part t f = len /\ (pp = 0 -> pads a = 0))
  | _ => True
  end.

(* States before the header has been reported. *)
Definition early (s : pstate) : bool :=
  match s with
  | StFrameLength1 | StFrameLength2 | StFrameLength3 | StFrameType
  | StFrameFlags | StFrameStreamId1 | StFrameStreamId2 | StFrameStreamId3 | StFrameStreamId4
  | StFrameFormatEnd | StDead | StFinished => true
  | _ => false
  end.

Definition inv (p : parser) (log : list event) : Prop :=
  bit_data32a p < 2 ^ 32 /\
  match last_header log with
  | Some (len, t, f) => acct (state_fn p) (bit_data32a p) len t f
  | None => early (state_fn p) = true
  end.

(* The frame is too short for its fixed fields and z bytes of padding. *)
Definition short (log : list event) : Prop :=
  exists len t f z, last_header log = Some (len, t, f) /\ z < 256 /\
    len < fixed_part t f + (if has_pad t f then 1 + z else 0).

Definition over_post (m m' : mach) (o : outcome) : Prop :=
  match o with
  | Faulted _ => short (ml m')
  | Fail _ | Exit (SFinished _) => True
  | _ => inv (mp m') (ml m')
  end.

Lemma sub32_t a b v : sub32 true a b = Some v -> b <= a /\ v = a - b.
Proof. unfold sub32. destruct (N.leb_spec b a); [|discriminate]. intros H0. split; congruence. Qed.
Lemma sub32_n a b : sub32 true a b = None -> a < b.
Proof. unfold sub32. destruct (N.leb_spec b a); [discriminate|auto]. Qed.

Lemma land_enc a : a < 2 ^ 32 -> N.land a 4294967040 = enc (plen a) 0.
Proof.
  intros H. rewrite (enc_all a) at 1. apply land_high; [apply pads_lt|now apply plen_lt].
Qed.

(* The header. *)
Lemma acct_target a c : a < 2 ^ 32 ->
  acct (target a c) (enc (plen a) 0) (plen a) (u8 (pads a)) (u8 c).
Proof.
  intros H. pose proof (pads_lt a) as P. rewrite (u8_small (pads a)) by assumption.
  rewrite (enc_all a) at 1.
  assert (target (enc (plen a) (pads a)) c = start (pads a) (u8 c)) as ->.
  { rewrite <- (target_start (plen a)); [|assumption|unfold u8; now apply N.mod_lt].
    unfold target, frame_target, has_flag. cbn [mp bit_data32a bit_data16a].
    unfold u8. now rewrite !N.mod_mod. }
  generalize (u8 c). intros f. generalize dependent (pads a). intros t T.
  assert (pads (enc (plen a) 0) <= plen (enc (plen a) 0)) as D.
  { rewrite pads_enc by reflexivity. lia. }
  destruct (N.le_gt_cases 10 t) as [U|U].
  - rewrite start_unknown by assumption. unfold acct.
    assert (has_pad t f = flag_padded f) as ->.
    { destruct t as [|q]; [lia|]. repeat (destruct q as [q|q|]; try reflexivity; try lia). }
    assert (fixed_part t f = 0) as ->.
    { destruct t as [|q]; [lia|]. repeat (destruct q as [q|q|]; try reflexivity; try lia). }
    destruct (flag_padded f); auto.
  - assert (t = 0 \/ t = 1 \/ t = 2 \/ t = 3 \/ t = 4 \/ t = 5 \/ t = 6 \/ t = 7 \/ t = 8 \/ t = 9) as C by lia.
    assert (plen (enc (plen a) 0) = plen a) as E1 by now apply plen_enc.
    assert (pads (enc (plen a) 0) = 0) as E2 by now apply pads_enc.
    repeat destruct C as [C|C]; subst t; cbn [start]; unfold acct; cbn [has_pad fixed_part];
      try exact I; auto;
      destruct (flag_padded f) eqn:FP; try destruct (flag_priority f) eqn:FR; auto;
      cbn [fixed_part]; rewrite ?FR; repeat split; auto; lia.
Qed.

Lemma over_eq a n v : a < 2 ^ 32 -> sub32 true (N.shiftr a 8) n = Some v ->
  n <= plen a /\ N.lor (N.land a 255) (shl32 v 8) = enc (plen a - n) (pads a).
Proof.
  intros A H. apply sub32_t in H. destruct H as [H ->]. split; [exact H|].
  change (N.land a 255) with (pads a). apply enc_lor; [|apply pads_lt].
  pose proof (plen_lt a A). unfold plen in *. lia.
Qed.

Lemma lor_lt32 x y : x < 2 ^ 32 -> y < 2 ^ 32 -> N.lor x y < 2 ^ 32.
Proof. intros. apply lor_lt; assumption. Qed.

Lemma u32_le x : u32 x <= x.
Proof. unfold u32. apply N.mod_le. discriminate. Qed.

(* The ways to be too short. *)
Lemma short_pad len t f log b : last_header log = Some (len, t, f) ->
  has_pad t f = true -> b < 256 -> sub32 true (N.shiftr (N.lor (enc len 0) b) 8) 1 = None ->
  short log.
Proof.
  intros H1 H2 H3 H4. rewrite lor_enc in H4 by assumption. fold (plen (enc len b)) in H4.
  rewrite plen_enc in H4 by assumption. apply sub32_n in H4.
  exists len, t, f, 0. rewrite H2. repeat split; [assumption|lia].
Qed.

Lemma short_fixed a k len t f log : last_header log = Some (len, t, f) ->
  fixed_part t f = k -> plen a + (if has_pad t f then 1 else 0) = len ->
  sub32 true (N.shiftr a 8) k = None -> short log.
Proof.
  intros H1 H2 H3 H4. apply sub32_n in H4. fold (plen a) in H4.
  exists len, t, f, 0. repeat split; [assumption|]. destruct (has_pad t f); lia.
Qed.

Definition room (a len t f : N) : Prop :=
  pads a <= plen a \/
  (plen a + (if has_pad t f then 1 else 0) + fixed_part t f = len /\
   ((if has_pad t f then 1 else 0) = 0 -> pads a = 0)).

Lemma short_data a len t f log : last_header log = Some (len, t, f) ->
  room a len t f -> sub32 true (N.shiftr a 8) (N.land a 255) = None -> short log.
Proof.
  intros H1 H2 H4. apply sub32_n in H4. fold (plen a) (pads a) in H4.
  destruct H2 as [H2|[H2 H3]]; [lia|].
  exists len, t, f, (pads a). repeat split; [assumption|apply pads_lt|].
  destruct (has_pad t f); lia.
Qed.

Lemma never_data a n x : sub32 true (N.shiftr a 8) (N.land a 255) = Some n -> n = x ->
  sub32 true (N.shiftr a 8) n = None -> False.
Proof. intros H1 _ H2. apply sub32_t in H1. apply sub32_n in H2. lia. Qed.

Lemma never_part a n x : n < N.shiftr a 8 \/ sub32 true (N.shiftr a 8) (N.land a 255) = Some x /\ n < x ->
  sub32 true (N.shiftr a 8) (u32 n) = None -> False.
Proof.
  intros H1 H2. apply sub32_n in H2. pose proof (u32_le n).
  destruct H1 as [H1|[H1 H3]]; [lia|]. apply sub32_t in H1. lia.
Qed.

Lemma room_part a n x v len t f : a < 2 ^ 32 ->
  sub32 true (N.shiftr a 8) (N.land a 255) = Some x -> n < x ->
  sub32 true (N.shiftr a 8) (u32 n) = Some v ->
  N.lor (N.land a 255) (shl32 v 8) < 2 ^ 32 /\ room (N.lor (N.land a 255) (shl32 v 8)) len t f.
Proof.
  intros A H1 H2 H3. apply over_eq in H3; [|assumption]. destruct H3 as [H3 ->].
  apply sub32_t in H1. destruct H1 as [H1 ->]. fold (plen a) (pads a) in *.
  pose proof (pads_lt a). pose proof (plen_lt a A). pose proof (u32_le n).
  split; [apply enc_lt; lia|]. left. rewrite pads_enc, plen_enc by assumption. lia.
Qed.

(* After the pad length. *)
Lemma after_pad len t f b v : enc len 0 < 2 ^ 32 -> has_pad t f = true -> b < 256 ->
  sub32 true (N.shiftr (N.lor (enc len 0) b) 8) 1 = Some v ->
  let a := N.lor (N.land (N.lor (enc len 0) b) 255) (shl32 v 8) in
  a < 2 ^ 32 /\ plen a + (if has_pad t f then 1 else 0) = len /\
  ((if has_pad t f then 1 else 0) = 0 -> pads a = 0).
Proof.
  intros A HP Hb H. rewrite lor_enc in * by assumption. apply plen_lt in A.
  rewrite plen_enc in A by reflexivity. apply over_eq in H; [|now apply enc_lt].
  destruct H as [H ->]. rewrite plen_enc, pads_enc in * by assumption. cbv zeta.
  rewrite HP, plen_enc, pads_enc by assumption. split; [apply enc_lt; lia|]. split; lia.
Qed.

(* After the fixed fields. *)
Lemma after_fixed a k v len t f : a < 2 ^ 32 -> fixed_part t f = k ->
  plen a + (if has_pad t f then 1 else 0) = len ->
  ((if has_pad t f then 1 else 0) = 0 -> pads a = 0) ->
  sub32 true (N.shiftr a 8) k = Some v ->
  let a' := N.lor (N.land a 255) (shl32 v 8) in a' < 2 ^ 32 /\ room a' len t f.
Proof.
  intros A F H1 H2 H. apply over_eq in H; [|assumption]. destruct H as [H ->].
  cbv zeta. pose proof (pads_lt a). pose proof (plen_lt a A).
  split; [apply enc_lt; lia|]. right. rewrite plen_enc, pads_enc by assumption.
  split; [lia|assumption].
Qed.

Lemma room_pad a len t f : fixed_part t f = 0 ->
  plen a + (if has_pad t f then 1 else 0) = len ->
  ((if has_pad t f then 1 else 0) = 0 -> pads a = 0) -> room a len t f.
Proof. intros F H1 H2. right. split; [lia|assumption]. Qed.

Lemma run_fn_over h m : inv (mp m) (ml m) -> bytes (crest (mc m)) ->
  wp (run_fn true h m) (over_post m).
Proof.
  destruct m as [p [cb mk sl r] l]. cbn [mp mc ml crest].
  intros (A32 & I) B.
  destruct p as [a b c d n st fn]. cbn [bit_data32a state_fn] in *.
  unfold run_fn. cbn [mp state_fn].
  destruct fn eqn:Efn; unfold_state; cbn [acct early] in I.
  all: wp_all.
  all: unfold over_post, inv, short; cbv zeta.
  all: cbn [mp mc ml crest cslice cmark cbyte state state_fn p_set_state p_32a p_32b p_16a p_16b
            with_c with_p bs_jump reset_bit_data bit_data32a bit_data32b bit_data16a bit_data16b] in *.
  all: try exact Logic.I.
  all: rewrite ?last_header_app.
  (* states before the header *)
  all: try solve [split; [lt32|]; destruct (last_header l) as [[[? ?] ?]|]; [exact Logic.I|reflexivity]].
  all: try (match goal with |- context [frame_target] => idtac end;
    split; [apply land_lt; assumption|];
    rewrite land_enc by assumption; apply acct_target; assumption).
  all: destruct (last_header l) as [[[len t] f]|] eqn:LH; try discriminate I.
  all: try solve [split; [lt32|exact I]].
  all: try solve [split; [lt32|exact Logic.I]].
  all: cbn [acct] in *.
  all: repeat match goal with H : bytes (_ :: _) |- _ => apply Forall_cons_iff in H; destruct H end.
  all: fold (short l) in *; fold (room a len t f) in I.
  (* impossible *)
  all: try solve [exfalso; eapply never_data; eassumption].
  all: try solve [exfalso; eapply (never_part _ _ 0); [left; eassumption|eassumption]].
  all: try solve [exfalso; eapply never_part; [right; split; eassumption|eassumption]].
  (* data *)
  all: try solve [rewrite <- LH; eapply short_data; eassumption].
  all: try solve [eapply room_part; eassumption].
  all: try solve [split; [lt32|]; destruct (0 <? N.land (N.lor (N.land a 255) (shl32 _ 8)) 255); exact Logic.I].
  (* pad length *)
  all: try (destruct I as (HP & -> & FX)).
  all: try solve [rewrite <- LH; eapply short_pad; eassumption].
  all: try solve [match goal with H : sub32 _ _ _ = Some _ |- _ =>
      eapply after_pad in H; [|eassumption|eassumption|eassumption] end;
      cbv zeta in *; destruct H as (Q1 & Q2 & Q3); split; [exact Q1|];
      first [apply room_pad; assumption|split; [exact FX|split; [exact Q2|exact Q3]]]].
  (* fixed fields *)
  all: try (destruct I as (FX & Q2 & Q3)).
  all: try solve [rewrite <- LH; eapply short_fixed; eassumption].
  all: try solve [eapply after_fixed; eassumption].
  (* go away *)
  all: assert (plen a + (if has_pad t f then 1 else 0) = len) as Q4
    by (rewrite Q2, Q3, plen_enc by reflexivity; lia);
    assert ((if has_pad t f then 1 else 0) = 0 -> pads a = 0) as Q5
    by (intros _; rewrite Q3; now apply pads_enc).
  all: try solve [rewrite <- LH; eapply short_fixed; eassumption].
  all: match goal with H : sub32 _ _ _ = Some _ |- _ =>
      eapply after_fixed in H; [|eassumption|eassumption|eassumption|eassumption] end;
    cbv zeta in H; destruct H as [H1 H2]; (split; [exact H1|]);
    destruct (0 <? _); [exact H2|exact Logic.I].
Qed.

(* ------------------------------------------------------------------ *)
(* Runs                                                                 *)
(* ------------------------------------------------------------------ *)

Lemma loop_misc chk h n m m' o : loop chk h n m m' o -> misc_post m m' o.
Proof.
  intros L. induction L as [m m' o R N|n m m1 m' o R L IH].
  - exact (wp_run _ _ (run_fn_misc chk h m) _ _ R).
  - destruct (wp_run _ _ (run_fn_misc chk h m) _ _ R) as [C1 (new1 & E1 & F1)].
    destruct IH as [C2 (new2 & E2 & F2)]. split; [congruence|].
    exists (new1 ++ new2). rewrite E2, E1, app_assoc. split; [reflexivity|].
    apply Forall_app. auto.
Qed.

Lemma loop_over h n m m' o : loop true h n m m' o -> live (state_fn (mp m)) = true ->
  inv (mp m) (ml m) -> bytes (crest (mc m)) -> over_post m m' o.
Proof.
  intros L. induction L as [m m' o R N|n m m1 m' o R L IH]; intros Lv I B.
  - exact (wp_run _ _ (run_fn_over h m I B) _ _ R).
  - pose proof (wp_run _ _ (run_fn_over h m I B) _ _ R) as P.
    pose proof (wp_run _ _ (run_fn_step true h m) _ _ R) as [(x & C1 & C2) (S1 & S2 & S3 & S4)].
    apply IH; [exact S3|exact P|]. rewrite C1 in B. now apply Forall_app in B.
Qed.

(* One call. *)
Lemma resume_misc chk h p log s p' log' r : resume chk h p log s = (p', log', r) ->
  (exists new, log' = log ++ new /\ Forall id31 new) /\
  match r with
  | ROk (SCallback n) | ROk (SEos n) => live (state_fn p) = true ->
      byte_count p' = byte_count p + N.of_nat n
  | _ => True
  end.
Proof.
  intros E. destruct (resume_loop _ _ _ _ _ _ _ _ E) as (k & m' & o & L & _ & -> & -> & -> & NF).
  pose proof (loop_misc _ _ _ _ _ _ L) as [C (new & E1 & F)]. cbn [mp ml] in C, E1.
  split.
  - exists new. destruct o as [|[n|n|n]|e|f]; cbn [finish fst ml with_p]; auto.
  - destruct o as [|[n|n|n]|e|f]; cbn [finish fst snd mp with_p]; try exact I.
    + intros Lv. destruct (loop_facts _ _ _ _ _ _ L Lv) as [_ (-> & _)].
      unfold add_count. cbn [byte_count]. rewrite C. reflexivity.
    + intros Lv. destruct (loop_facts _ _ _ _ _ _ L Lv) as [_ (-> & _)].
      unfold add_count. cbn [byte_count]. rewrite C. reflexivity.
Qed.

Lemma resume_over h p log s p' log' r :
  live (state_fn p) = true -> inv p log -> bytes s -> resume true h p log s = (p', log', r) ->
  match r with
  | RFault _ => short log'
  | ROk (SCallback _) | ROk (SEos _) => inv p' log'
  | _ => True
  end.
Proof.
  intros Lv I B E.
  destruct (resume_loop _ _ _ _ _ _ _ _ E) as (k & m' & o & L & _ & -> & -> & -> & NF).
  pose proof (loop_over _ _ _ _ _ L Lv I B) as P. unfold over_post in P.
  destruct o as [|[n|n|n]|e|f]; cbn [finish fst snd mp with_p] in *; auto.
Qed.

(* ------------------------------------------------------------------ *)
(* Everything a program can do                                          *)
(* ------------------------------------------------------------------ *)

Lemma history_facts chk p log : history chk p log ->
  (waiting (state_fn p) = true /\ state p = state_fn p) /\ Forall id31 log /\
  (chk = true -> inv p log).
Proof.
  induction 1 as [|p log H (IH1 & IH2 & IH3)|p h log s p' log' r H (IH1 & IH2 & IH3) B E NF].
  - split; [split; reflexivity|]. split; [constructor|]. intros _. split; [reflexivity|exact eq_refl].
  - split; [split; reflexivity|]. split; [assumption|]. intros _. split; [reflexivity|]. cbn [reset state_fn reset_bit_data].
    destruct (last_header log) as [[[? ?] ?]|]; [exact I|reflexivity].
  - destruct IH1 as [W S]. pose proof (waiting_live _ W) as Lv.
    pose proof (resume_facts _ _ _ _ _ _ _ _ Lv E) as F.
    destruct (resume_misc _ _ _ _ _ _ _ _ E) as [(new & -> & FI) _].
    assert (waiting (state_fn p') = true /\ state p' = state_fn p') as K.
    { destruct r as [[n|n|n]|e|f|]; try (now destruct (NF f)); try tauto. }
    split; [exact K|]. split; [apply Forall_app; auto|].
    intros ->. pose proof (resume_over _ _ _ _ _ _ _ Lv (IH3 eq_refl) B E) as P.
    destruct r as [[n|n|n]|e|f|]; try (now destruct (NF f)); try tauto.
Qed.

Lemma reachable_history chk p : reachable chk p ->
  waiting (state_fn p) = true /\ state p = state_fn p.
Proof.
  induction 1 as [|p H IH|p h log s p' log' r H IH B E NF]; try (split; reflexivity).
  destruct IH as [W S]. pose proof (waiting_live _ W) as Lv.
  pose proof (resume_facts _ _ _ _ _ _ _ _ Lv E) as F.
  destruct r as [[n|n|n]|e|f|]; try (now destruct (NF f)); try tauto.
Qed.
