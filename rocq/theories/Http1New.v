(* A parser fresh from new() and one after init_head, given a stream that does
   not start with white space (C31). *)

From Coq Require Import NArith List Bool Arith Lia String.
From Verif Require Import Bytes ByteStream Http1Model Http1Base Http1Wp Http1Spec Http1Term Http1Misc Http1Run Http1Client Http1Api Http1Use Http1Fresh.
Import ListNotations.
Local Open Scope N_scope.

(* States that look at the byte fetched before. *)
Definition looks (s : pstate) : bool :=
  match s with StDetect1 | StFirstHeaderName => true | _ => false end.

(* Equal up to the byte fetched last. *)
Definition ctxeq (c c' : ctx) : Prop :=
  cmark c = cmark c' /\ cslice c = cslice c' /\ crest c = crest c'.

Definition machine_eq (m m' : mach) : Prop := mp m = mp m' /\ ctxeq (mc m) (mc m') /\ ml m = ml m'.

Definition same_step (x y : mach * outcome) : Prop :=
  machine_eq (fst x) (fst y) /\ snd x = snd y /\
  (snd x = Continue -> looks (state_fn (mp (fst x))) = true -> cbyte (mc (fst x)) = cbyte (mc (fst y))).

Section Irrelevant.
Variables (h : handler).

Lemma step_same x : same_step x x.
Proof. repeat split. Qed.

Lemma run_fn_cbyte p cb cb' mk sl r l : looks (state_fn p) = false ->
  same_step (run_fn h (Mach p (Ctx cb mk sl r) l)) (run_fn h (Mach p (Ctx cb' mk sl r) l)).
Proof.
  intros K. unfold run_fn. cbn [mp].
  destruct (state_fn p) eqn:Efn; try discriminate K; unfold_state.
  all: unfold next_or_eos, next_unchecked, collecting, if_starts_with, callback_eos, callback_slice, callback_transition_slice,
    callback_transition_data, callback_ignore_transition, callback_data, call, collect_field, collect_quoted_field, collect_tokens, collect_visible_7bit,
    consume_linear_space, bs_collect, bs_next, bs_starts_with, bs_available, bs_has_bytes, bs_slice_length, bs_slice, bs_slice_ignore, header_escaped_value.
  all: cbn [mc mp ml with_c with_p set_state p_set_state state_fn jump bs_jump crest cmark cslice].
  all: destruct r as [|b r]; cbn [collect_loop List.length mc mp ml with_c with_p set_state p_set_state state_fn jump bs_jump crest cmark cslice].
  all: repeat match goal with
  | |- same_step _ _ => apply step_same
  | |- same_step (match ?x with _ => _ end) _ => destruct x eqn:?; cbn [mc mp ml with_c with_p set_state p_set_state state_fn jump bs_jump cslice cmark crest cbyte]
  | |- same_step (let '(_,_) := ?x in _) _ => destruct x eqn:?
  end.
  all: try (repeat split; (reflexivity || discriminate || (intros; congruence))).
  all: unfold callback_eos, callback_transition_slice, callback_slice, callback_data, call, bs_next, bs_slice_length, bs_slice, bs_jump;
    cbn [mc mp ml with_c with_p set_state p_set_state state_fn jump bs_jump cslice cmark crest cbyte].
  all: repeat match goal with
  | |- same_step _ _ => apply step_same
  | |- same_step (match ?x with _ => _ end) _ => destruct x eqn:?; cbn [mc mp ml with_c with_p set_state p_set_state state_fn jump bs_jump cslice cmark crest cbyte]
  end.
  all: try (repeat split; (reflexivity || discriminate || (intros; congruence))).
  all: destruct (parser_type p).
  all: repeat split; try (reflexivity || discriminate || (intros; congruence)).
  all: match goal with |- ?g => idtac g end.
Qed.

Definition vis (x : mach * result) : parser * list event * result := (mp (fst x), ml (fst x), snd x).

Lemma parse_same fuel : forall m m', machine_eq m m' ->
  (looks (state_fn (mp m)) = true -> cbyte (mc m) = cbyte (mc m')) ->
  vis (parse fuel h m) = vis (parse fuel h m').
Proof.
  induction fuel as [|fuel IH]; intros [p [cb mk sl r] l] [p' [cb' mk' sl' r'] l'] (E1 & (E2 & E3 & E4) & E5) K;
    cbn [mp mc ml cmark cslice crest cbyte] in *; subst p' mk' sl' r' l'.
  - reflexivity.
  - assert (S : same_step (run_fn h (Mach p (Ctx cb mk sl r) l)) (run_fn h (Mach p (Ctx cb' mk sl r) l))).
    { destruct (looks (state_fn p)) eqn:L; [rewrite <- K by reflexivity; apply step_same|now apply run_fn_cbyte]. }
    cbn [parse]. destruct (run_fn h (Mach p (Ctx cb mk sl r) l)) as [m1 o1], (run_fn h (Mach p (Ctx cb' mk sl r) l)) as [m2 o2].
    destruct S as (M & O & C). cbn [fst snd] in *. subst o2.
    destruct o1 as [|s|e|f]; [apply IH; auto| | |].
    all: destruct M as (M1 & (M2 & M3 & M4) & M5); unfold vis, cindex; cbn [fst snd with_p mp ml];
      now rewrite ?M1, ?M2, ?M3, ?M5.
Qed.

Lemma parse_step fuel m m1 : run_fn h m = (m1, Continue) -> parse (S fuel) h m = parse fuel h m1.
Proof. intros R. cbn [parse]. now rewrite R. Qed.


(* The callback of a known method, with the two possible contents of the byte
   field. *)
Lemma method_same F m1 m2 cb cb' p p' sl r log e :
  run_fn h m1 = callback_transition_data h (Mach p (Ctx cb 0 sl r) log) e StRequestUrl1 ->
  run_fn h m2 = callback_transition_data h (Mach p' (Ctx cb' 0 sl r) log) e StRequestUrl1 ->
  p_set_state p StRequestUrl1 = p_set_state p' StRequestUrl1 ->
  vis (parse (S F) h m1) = vis (parse (S F) h m2).
Proof.
  intros R1 R2 P. cbn [parse]. rewrite R1, R2.
  unfold callback_transition_data, callback_data, call, set_state. cbn [mp mc ml with_p]. rewrite P.
  destruct (h_ret h log e).
  - cbn. apply parse_same; [repeat split|discriminate].
  - reflexivity.
Qed.

(* detect1 on a stream, with the two possible contents of the byte field. *)
Lemma detect_same (b : byte) (s : list byte) log :
  vis (parse (fuel_of (b :: s)) h (Mach new1 (Ctx 0 0 [] (b :: s)) log)) =
  vis (parse (fuel_of (b :: s)) h (Mach new1 (Ctx b 0 [] (b :: s)) log)).
Proof.
  set (F := fuel_of (b :: s)).
  assert (E0 : snd (parse F h (Mach new1 (Ctx 0 0 [] (b :: s)) log)) <> RFuel) by now apply parse_fuel_of.
  assert (E1 : snd (parse F h (Mach new1 (Ctx b 0 [] (b :: s)) log)) <> RFuel) by now apply parse_fuel_of.
  assert (F0 : forall F', (F <= F')%nat -> parse F' h (Mach new1 (Ctx 0 0 [] (b :: s)) log) = parse F h (Mach new1 (Ctx 0 0 [] (b :: s)) log))
    by exact (parse_more_fuel _ _ _ E0).
  assert (F1 : forall F', (F <= F')%nat -> parse F' h (Mach new1 (Ctx b 0 [] (b :: s)) log) = parse F h (Mach new1 (Ctx b 0 [] (b :: s)) log))
    by exact (parse_more_fuel _ _ _ E1).
  assert (K : same_step (run_fn h (Mach new1 (Ctx 0 0 [] (b :: s)) log)) (run_fn h (Mach new1 (Ctx b 0 [] (b :: s)) log)) ->
     vis (parse F h (Mach new1 (Ctx 0 0 [] (b :: s)) log)) = vis (parse F h (Mach new1 (Ctx b 0 [] (b :: s)) log))).
  { intros S. rewrite <- (F0 (Datatypes.S F)), <- (F1 (Datatypes.S F)) by lia. cbn [parse].
    destruct (run_fn h (Mach new1 (Ctx 0 0 [] (b :: s)) log)) as [m1 o1], (run_fn h (Mach new1 (Ctx b 0 [] (b :: s)) log)) as [m2 o2].
    destruct S as (M & O & C). cbn [fst snd] in *. subst o2.
    destruct o1 as [|s0|e|f]; [apply parse_same; auto| | |].
    all: destruct M as (M1 & (M2 & M3 & M4) & M5); unfold vis, cindex; cbn [fst snd with_p mp ml];
      now rewrite ?M1, ?M2, ?M3, ?M5. }
  clear E0 E1. clearbody F.
  destruct (N.eqb_spec b 80) as [->|Nb].
  2:{ apply K. clear K F0 F1. unfold run_fn. cbn [mp new1 state_fn]. unfold detect1, detect1_methods, detect1_version, detect1_slow, detect1_method,
        callback_transition_data, callback_data, call, next_or_eos, transition, if_starts_with, bs_starts_with, bs_has_bytes, jump, bs_jump, with_c.
      cbn [mc mp ml with_c with_p set_state p_set_state state_fn bs_jump cslice cmark crest cbyte bs_next].
      apply N.eqb_neq in Nb. rewrite Nb. change (0 =? 80) with false. cbv iota.
      repeat match goal with
      | |- same_step _ _ => apply step_same
      | |- same_step (match ?x with _ => _ end) _ => destruct x eqn:?; cbn [mc mp ml with_c with_p set_state p_set_state state_fn jump bs_jump cslice cmark crest cbyte]
      end.
      all: repeat split; (reflexivity || discriminate || (intros; congruence)). }
  destruct s as [|x1 s]; [apply K; exact (step_same _)|].
  destruct s as [|x2 s]; [apply K; exact (step_same _)|].
  destruct s as [|x3 s]; [apply K; exact (step_same _)|].
  destruct s as [|x4 s]; [apply K; exact (step_same _)|].
  destruct s as [|x5 s]; [apply K; exact (step_same _)|].
  destruct s as [|x6 s]; [apply K; exact (step_same _)|].
  destruct s as [|x7 s]; [apply K; exact (step_same _)|].
  destruct (beq [80; x1; x2; x3] (bs "PRI ")) eqn:P1.
  { apply beq_eq in P1. injection P1 as -> -> ->.
    rewrite <- (F0 (S F)), <- (F1 (S (S F))) by lia.
    rewrite (parse_step (S F) (Mach new1 (Ctx 80 0 [] _) log)
       (Mach (p_set_state new1 StRequestMethod) (Ctx 80 0 [80] (82 :: 73 :: 32 :: x4 :: x5 :: x6 :: x7 :: s)) log)) by reflexivity.
    eapply (method_same F _ _ 0 32 new1 (p_set_state new1 StRequestMethod) [80;82;73;32] (x4 :: x5 :: x6 :: x7 :: s) log (EData KMethod (bs "PRI")));
      reflexivity. }
  destruct (beq [80; x1; x2; x3; x4] (bs "POST ")) eqn:P2.
  { apply beq_eq in P2. injection P2 as -> -> -> ->.
    rewrite <- (F0 (S (S F))), <- (F1 (S F)) by lia.
    rewrite (parse_step (S F) (Mach new1 (Ctx 0 0 [] _) log)
       (Mach (p_set_state new1 StRequestMethod) (Ctx 80 0 [80] (79 :: 83 :: 84 :: 32 :: x5 :: x6 :: x7 :: s)) log)) by reflexivity.
    eapply (method_same F _ _ 32 80 (p_set_state new1 StRequestMethod) new1 [80;79;83;84;32] (x5 :: x6 :: x7 :: s) log (EData KMethod (bs "POST")));
      reflexivity. }
  destruct (beq [80; x1; x2; x3] (bs "PUT ")) eqn:P3.
  { apply beq_eq in P3. injection P3 as -> -> ->.
    rewrite <- (F0 (S (S F))), <- (F1 (S F)) by lia.
    rewrite (parse_step (S F) (Mach new1 (Ctx 0 0 [] _) log)
       (Mach (p_set_state new1 StRequestMethod) (Ctx 80 0 [80] (85 :: 84 :: 32 :: x4 :: x5 :: x6 :: x7 :: s)) log)) by reflexivity.
    eapply (method_same F _ _ 32 80 (p_set_state new1 StRequestMethod) new1 [80;85;84;32] (x4 :: x5 :: x6 :: x7 :: s) log (EData KMethod (bs "PUT")));
      reflexivity. }
  apply K. clear K F0 F1.
  set (r := 80 :: x1 :: x2 :: x3 :: x4 :: x5 :: x6 :: x7 :: s).
  assert (A0 : run_fn h (Mach new1 (Ctx 0 0 [] r) log) = 
     if beq [80; x1; x2; x3] (bs "PRI ") then detect1_method h (Mach new1 (Ctx 0 0 [] r) log) (bs "PRI") 4
     else detect1_slow (Mach new1 (Ctx 0 0 [] r) log)) by reflexivity.
  assert (A1 : run_fn h (Mach new1 (Ctx 80 0 [] r) log) = 
     if beq [80; x1; x2; x3; x4] (bs "POST ") then detect1_method h (Mach new1 (Ctx 80 0 [] r) log) (bs "POST") 5
     else if beq [80; x1; x2; x3] (bs "PUT ") then detect1_method h (Mach new1 (Ctx 80 0 [] r) log) (bs "PUT") 4
     else detect1_slow (Mach new1 (Ctx 80 0 [] r) log)) by reflexivity.
  change (same_step (run_fn h (Mach new1 (Ctx 0 0 [] r) log)) (run_fn h (Mach new1 (Ctx 80 0 [] r) log))).
  rewrite A0, A1, P1, P2, P3. exact (step_same (detect1_slow (Mach new1 (Ctx 80 0 [] r) log))).
Qed.
End Irrelevant.

Lemma init_resume h (b : byte) (s : list byte) log : ~ In b [13; 10; 9; 32] ->
  resume h (init_head new) log (b :: s) = resume h new log (b :: s).
Proof.
  intros W.
  assert (Wb : (b =? 13) || (b =? 10) || (b =? 9) || (b =? 32) = false).
  { destruct (N.eqb_spec b 13), (N.eqb_spec b 10), (N.eqb_spec b 9), (N.eqb_spec b 32); subst; auto;
      exfalso; apply W; cbn; auto. }
  rewrite new_resume. unfold resume. change (parser_type (init_head new)) with Head. change (parser_type new1) with Head. cbv iota.
  pose proof (detect_same h b s log) as D. unfold vis in D.
  assert (P : parse (fuel_of (b :: s)) h (Mach (init_head new) (bs_new (b :: s)) log) =
              parse (fuel_of (b :: s)) h (Mach new1 (Ctx b 0 [] (b :: s)) log)).
  { assert (E0 : snd (parse (fuel_of (b :: s)) h (Mach new1 (Ctx b 0 [] (b :: s)) log)) <> RFuel) by now apply parse_fuel_of.
    assert (E1 : snd (parse (fuel_of (b :: s)) h (Mach (init_head new) (bs_new (b :: s)) log)) <> RFuel) by now apply parse_fuel_of.
    rewrite <- (parse_more_fuel _ _ _ E1 (S (fuel_of (b :: s)))) by lia.
    apply parse_step. unfold run_fn. cbn [mp init_head new with_type reset parser_type state_fn].
    unfold strip_detect, bs_collect. cbn [mc bs_new crest collect_loop]. rewrite Wb. reflexivity. }
  rewrite P. change (bs_new (b :: s)) with (Ctx 0 0 [] (b :: s)).
  clear P. change (list byte) with (list N) in *. revert D. generalize (fuel_of (b :: s)). intros F D.
  destruct (parse F h (Mach new1 (Ctx b 0 [] (b :: s)) log)) as [m1 r1].
  destruct (parse F h (Mach new1 (Ctx 0 0 [] (b :: s)) log)) as [m2 r2].
  cbn [fst snd] in D. symmetry. exact D.
Qed.

Lemma init_head_recount q : init_head q = recount (init_head new) (byte_count q).
Proof. reflexivity. Qed.

(* A parser never used and one after init_head cannot be told apart. *)
Lemma new_observe h q log (b : byte) (s : list byte) ops : ~ In b [13; 10; 9; 32] ->
  observe h 0 new log (OpResume (b :: s) :: ops) =
  observe h (byte_count q) (init_head q) log (OpResume (b :: s) :: ops).
Proof.
  intros W.
  transitivity (observe h 0 (init_head new) log (OpResume (b :: s) :: ops)).
  { cbn [observe perform]. now rewrite init_resume. }
  rewrite (init_head_recount q), <- (N.add_0_r (byte_count q)) at 1.
  rewrite (observe_recount h _ 0 (byte_count q) 0 (init_head new)) by reflexivity. now rewrite N.add_0_r.
Qed.
