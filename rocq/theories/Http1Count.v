(* What byte_count() really says of URL-encoded bodies. *)

From Coq Require Import NArith List Bool Arith String Lia.
From Verif Require Import Bytes ByteStream Http1Model Http1Base Http1Wp Http1Term Http1Spec Http1Pause
     Http1Sem Http1Sim Http1Misc Http1Run Http1Client Http1Api Http1Url Http1PauseFacts.
Import ListNotations.
Local Open Scope N_scope.

Lemma reachable_state p : reachable p -> parser_type p = Head \/ state p = state_fn p.
Proof.
  intros R. induction R as [|p R IH|p R IH|p R IH|p R IH|p R IH|p b R IH|p n R IH|p h log s p' log' r R IH E NF].
  - now left.
  - right. unfold reset. cbn [parser_type]. destruct (parser_type p); reflexivity.
  - now right.
  - now right.
  - now right.
  - now right.
  - exact IH.
  - exact IH.
  - pose proof (resume_facts_all _ _ _ _ _ _ _ (reachable_vstate _ R) E) as RF.
    destruct IH as [T|S]; [left; now rewrite (rf_type _ _ _ _ _ _ RF)|].
    right. now apply (rf_state _ _ _ _ _ _ RF).
Qed.

Lemma resume_count_url h p log s p' log' r :
  vstate UrlEncoded (state_fn p) = true -> state p = state_fn p -> parser_type p = UrlEncoded -> resume h p log s = (p', log', r) ->
  match r with
  | ROk (SEos n) => byte_count p' = byte_count p + N.of_nat n
  | ROk (SCallback n) => byte_count p' = byte_count p +
      N.of_nat n * (if match state p' with StFinished => true | _ => false end then 2 else 1)
  | ROk (SFinished n) => byte_count p' = byte_count p + N.of_nat n * 2
  | RErr _ => exists n, (n <= List.length s)%nat /\ byte_count p' = byte_count p + N.of_nat n
  | _ => True
  end.
Proof.
  intros V Sp T E.
  destruct (ended (state_fn p)) eqn:O.
  { assert (state_fn p = StFinished \/ state_fn p = StBodyFinished) as [F|F]
      by (destruct (state_fn p); cbn in O; auto; discriminate).
    - rewrite resume_finished in E by exact F. injection E as <- <- <-. cbn. lia.
    - unfold resume in E. rewrite T in E. cbv zeta in E. rewrite cut_eq in E.
      set (c := firstn (N.to_nat (plength p)) s) in *.
      destruct (parse (fuel_of c) h (Mach p (bs_new c) log)) as [m r0] eqn:P.
      pose proof (parse_facts_all _ _ _ _ _ _ P) as PF.
      replace (fuel_of c) with (Datatypes.S (Datatypes.S (fuel_of c - 2))) in P by (unfold fuel_of; lia).
      apply body_finish in P; [|exact F|exact T].
      destruct P as (_ & _ & _ & _ & _ & _ & [-> | ->]).
      + injection E as <- <- <-. destruct (pf_fin _ _ _ _ _ PF _ eq_refl) as (_ & G & _).
        rewrite (pf_count _ _ _ _ _ PF ltac:(discriminate)), <- G. reflexivity.
      + destruct (pf_cb _ _ _ _ _ PF _ eq_refl) as (_ & G & _).
        pose proof (pf_count _ _ _ _ _ PF ltac:(discriminate)) as C. rewrite <- G in C.
        destruct (plength (mp m) <? _); injection E as <- <- <-; [exact I|]. exact C. }
  unfold resume in E. rewrite T in E. cbv zeta in E. rewrite cut_eq in E.
  set (n := N.to_nat (plength p)) in *. set (c := firstn n s) in *.
  destruct (parse (fuel_of c) h (Mach p (bs_new c) log)) as [m r0] eqn:P.
  pose proof (parse_facts_all _ _ _ _ _ _ P) as PF.
  pose proof (parse_open h _ (Mach p (bs_new c) log) _ _ T V O P) as [A1 A2].
  destruct r0 as [[n1|n1|n1]|e|f|].
  - destruct (pf_cb _ _ _ _ _ PF n1 eq_refl) as (_ & G1 & _).
    pose proof (pf_count _ _ _ _ _ PF ltac:(discriminate)) as C.
    pose proof (pf_state _ _ _ _ _ PF Sp ltac:(discriminate)) as S'.
    destruct (plength (mp m) <? N.of_nat n1); injection E as <- <- <-; [exact I|].
    cbn [with_length byte_count state]. rewrite C, S', <- G1.
    destruct (state_fn (mp m)); try discriminate A1; now rewrite N.mul_1_r.
  - destruct (pf_eos _ _ _ _ _ PF n1 eq_refl) as (_ & G1).
    pose proof (pf_count _ _ _ _ _ PF ltac:(discriminate)) as C.
    destruct (plength (mp m) <? N.of_nat n1); [injection E as <- <- <-; exact I|].
    destruct (plength (mp m) - N.of_nat n1 =? 0).
    + destruct (parse _ h (with_p _ _)) as [m2 r2] eqn:P2 in E. injection E as <- <- <-.
      replace (fuel_of c) with (Datatypes.S (Datatypes.S (fuel_of c - 2))) in P2 by (unfold fuel_of; lia).
      destruct m as [pm cm lm]. cbn [with_p mp mc ml] in *.
      assert (byte_count (mp m2) = byte_count pm + N.of_nat (cindex cm)) as C2.
      { clear -P2. cbn [parse] in P2. unfold run_fn at 1 in P2. cbn [mp p_set_state state_fn] in P2.
        unfold body_finished, callback_transition_data, callback_data, call, transition, remark, set_state, with_p, with_c,
          exit_callback in P2. cbn [mp mc ml] in P2.
        destruct (h_ret h lm EBodyFinished); cbn [mp mc ml] in P2.
        - unfold run_fn in P2. cbn [mp state_fn p_set_state] in P2.
          unfold finished, exit_finished in P2. cbn [mp mc ml with_p] in P2. injection P2 as <- <-.
          cbn. unfold bs_mark, cindex. cbn. now rewrite Nat.add_0_r.
        - injection P2 as <- <-. cbn. unfold bs_mark, cindex. cbn. now rewrite ?Nat.add_0_r. }
      apply body_finish in P2; [|reflexivity|].
      * destruct P2 as (_ & _ & Q3 & _ & _ & _ & [-> | ->]); cbn beta iota; rewrite C2, C; cbn [mc]; [lia|]. rewrite Q3. lia.
      * pose proof (pf_type _ _ _ _ _ PF) as Y. cbn [mp] in Y. cbn [p_set_state parser_type]. congruence.
    + injection E as <- <- <-. cbn [with_length byte_count]. now rewrite C, <- G1.
  - now destruct (A2 n1).
  - injection E as <- <- <-. exists (cindex (mc m)). split; [|exact (pf_count _ _ _ _ _ PF ltac:(discriminate))].
    pose proof (pf_pos _ _ _ _ _ PF) as X. pose proof (firstn_length n s) as Y. fold c in Y. lia.
  - now injection E as <- <- <-.
  - now injection E as <- <- <-.
Qed.

Lemma url_count h p log s p' log' r :
  reachable p -> parser_type p = UrlEncoded -> resume h p log s = (p', log', r) ->
  match r with
  | ROk (SEos n) => byte_count p' = byte_count p + N.of_nat n
  | ROk (SCallback n) =>
      (state p' <> StFinished -> byte_count p' = byte_count p + N.of_nat n) /\
      (state p' = StFinished -> byte_count p' = byte_count p + 2 * N.of_nat n)
  | ROk (SFinished n) => byte_count p' = byte_count p + 2 * N.of_nat n
  | RErr _ => exists n, (n <= List.length s)%nat /\ byte_count p' = byte_count p + N.of_nat n
  | _ => True
  end.
Proof.
  intros R T E. pose proof (reachable_vstate _ R) as V. rewrite T in V.
  assert (state p = state_fn p) as Sp by (destruct (reachable_state p R); congruence).
  pose proof (resume_count_url h p log s p' log' r V Sp T E) as C.
  destruct r as [[n|n|n]|e|f|]; auto.
  - split; intros S; destruct (state p'); try contradiction; try discriminate S; rewrite C; lia.
  - rewrite C. lia.
Qed.

(* The whole client. *)
Lemma client_count_url h fuel : forall p log segs p' log' rest o,
  parser_type p = UrlEncoded -> vstate UrlEncoded (state_fn p) = true -> ended (state_fn p) = false ->
  state p = state_fn p -> client fuel h p log segs = (p', log', rest, o) ->
  (o = OEos -> byte_count p' = byte_count p + N.of_nat (List.length (List.concat segs))) /\
  (o = OFinished -> exists before seg after k,
     segs = before ++ seg :: after /\
     (before = [] \/ N.of_nat (List.length (List.concat before)) < plength p) /\
     plength p <= N.of_nat (List.length (List.concat before) + List.length seg) /\
     N.of_nat (List.length (List.concat before)) + k <= plength p /\
     byte_count p' = byte_count p + plength p + k /\
     ((forall l e, h_ret h l e = true) -> N.of_nat (List.length (List.concat before)) + k = plength p)).
Proof.
  induction fuel as [|fuel IH]; intros p log segs p' log' rest o T V O St E; cbn [client] in E.
  - destruct segs; injection E as <- <- <- <-; (split; [|discriminate]); [cbn; lia|discriminate].
  - destruct segs as [|seg more]; [injection E as <- <- <- <-; split; [cbn; lia|discriminate]|].
    destruct (resume h p log seg) as [[p1 log1] r] eqn:R.
    pose proof (resume_url h p log seg p1 log1 r T V O R) as U.
    pose proof (resume_count_url h p log seg p1 log1 r V St T R) as C.
    rewrite <- T in V.
    pose proof (resume_facts_all _ _ _ _ _ _ _ V R) as RF.
    pose proof (rf_type _ _ _ _ _ _ RF) as T1. rewrite T in T1.
    pose proof (rf_vstate _ _ _ _ _ _ RF) as V1. rewrite T1 in V1.
    pose proof (rf_state _ _ _ _ _ _ RF St) as S1.
    cbn [List.concat]. rewrite app_length.
    destruct r as [[n|n|n]|e|f|]; try (injection E as <- <- <- <-; split; discriminate).
    + assert (NP : (forall l e, h_ret h l e = true) -> False).
      { intros Y. destruct (resume_pause_v _ _ _ _ _ _ _ V R) as (x & _ & B). unfold obeys in B.
        destruct B as (y & e & _ & _ & _ & B). rewrite Y in B. discriminate B. }
      specialize (S1 ltac:(discriminate)).
      destruct U as (U1 & [(U2 & U3 & U4)|(U2 & U3)]).
      * apply IH in E; trivial. destruct E as [E1 E2]. cbn [List.concat] in E1.
        rewrite app_length, skipn_length in E1. rewrite U3 in E2.
        assert (C' : byte_count p1 = byte_count p + N.of_nat n).
        { rewrite C, S1. destruct (state_fn p1); try discriminate U4; now rewrite N.mul_1_r. }
        split.
        -- intros X. rewrite (E1 X). lia.
        -- intros X. destruct (E2 X) as (bf & sg & af & k & Q1 & Q2 & Q3 & Q4 & Q5 & Q6).
           destruct bf as [|x bf]; cbn [app] in Q1; injection Q1 as Q1 Q1'.
           ++ exists [], seg, more, k. rewrite <- Q1, skipn_length in Q3. cbn [List.concat List.length] in *.
              clear IH R RF E1 E2. repeat split; auto; try lia. intros Y; destruct (NP Y).
           ++ exists (seg :: bf), sg, af, k. rewrite <- Q1 in Q2, Q3, Q4. subst more. cbn [List.concat] in *.
              rewrite !app_length, !skipn_length in *. destruct Q2 as [Q2|Q2]; [discriminate Q2|].
              clear IH R RF E1 E2. repeat split; auto; try lia. intros Y; destruct (NP Y).
      * destruct fuel as [|fuel]; cbn [client] in E; [injection E as <- <- <- <-; split; discriminate|].
        rewrite (resume_finished h p1 log1 (skipn n seg) U3) in E. injection E as <- <- <- <-.
        split; [discriminate|]. intros _. exists [], seg, more, (plength p). cbn [List.concat List.length app].
        rewrite S1, U3 in C. cbv beta iota in C. clear IH R RF. repeat split; auto; try lia. cbn [with_state_only add_count byte_count]. lia.
    + specialize (S1 ltac:(discriminate)).
      destruct U as (U1 & U2 & U3 & U4). apply IH in E; trivial. destruct E as [E1 E2].
      rewrite U3 in E2. split.
      * intros X. rewrite (E1 X). lia.
      * intros X. destruct (E2 X) as (bf & sg & af & k & Q1 & Q2 & Q3 & Q4 & Q5 & Q6).
        exists (seg :: bf), sg, af, k. subst more. cbn [List.concat app]. rewrite !app_length.
        clear IH R RF E1 E2. repeat split; auto; try lia.
        -- right. destruct Q2 as [->|Q2]; cbn [List.concat List.length]; lia.
        -- intros Y. specialize (Q6 Y). lia.
    + injection E as <- <- <- <-. split; [discriminate|]. intros _. destruct U as (U1 & U2 & U3).
      exists [], seg, more, (plength p). cbn [List.concat List.length app].
      clear IH R RF. repeat split; auto; lia.
Qed.

Lemma feed_count_url h q n segs p' log rest o :
  feed h (set_length (init_url_encoded q) n) segs = (p', log, rest, o) ->
  (o = OEos -> byte_count p' = byte_count q + N.of_nat (List.length (List.concat segs))) /\
  (o = OFinished -> exists before seg after k,
     segs = before ++ seg :: after /\
     (before = [] \/ N.of_nat (List.length (List.concat before)) < n) /\
     n <= N.of_nat (List.length (List.concat before) + List.length seg) /\
     N.of_nat (List.length (List.concat before)) + k <= n /\
     byte_count p' = byte_count q + n + k /\
     ((forall l e, h_ret h l e = true) -> N.of_nat (List.length (List.concat before)) + k = n)).
Proof. now apply (client_count_url h _ (set_length (init_url_encoded q) n)). Qed.
