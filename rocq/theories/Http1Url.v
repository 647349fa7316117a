(* URL-encoded bodies: accounting of the declared length. *)

From Coq Require Import NArith List Bool Arith String Lia ZifyBool.
From Verif Require Import Bytes ByteStream Http1Model Http1Base Http1Wp Http1Term Http1Spec
     Http1Sem Http1Sim Http1Misc Http1Run Http1Client.
Import ListNotations.
Local Open Scope N_scope.

Definition ended (s : pstate) : bool :=
  match s with StFinished | StBodyFinished => true | _ => false end.

(* The states of URL-encoded parsing do not finish by themselves. *)
Lemma run_fn_open h m :
  vstate UrlEncoded (state_fn (mp m)) = true -> ended (state_fn (mp m)) = false ->
  wp (run_fn h m) (fun m' o => ended (state_fn (mp m')) = false /\ forall n, o <> Exit (SFinished n)).
Proof.
  destruct m as [p [cb mk sl r] l]. unfold run_fn. cbn [mp].
  destruct (state_fn p) eqn:Efn; cbn [vstate ended]; intros V N; try discriminate; clear V N.
  all: unfold_state; lits.
  all: wp_all.
  all: cbn [mp state_fn p_set_state with_length set_upper14 set_lower14 with_bits].
  all: rewrite ?Efn.
  all: try (split; [reflexivity|discriminate]).
Qed.

Lemma parse_open h fuel : forall m m' r,
  parser_type (mp m) = UrlEncoded ->
  vstate UrlEncoded (state_fn (mp m)) = true -> ended (state_fn (mp m)) = false ->
  parse fuel h m = (m', r) ->
  ended (state_fn (mp m')) = false /\ forall n, r <> ROk (SFinished n).
Proof.
  induction fuel as [|fuel IH]; intros m m' r T V O E; cbn [parse] in E.
  - injection E as <- <-. split; [exact O|discriminate].
  - destruct (run_fn h m) as [m1 o] eqn:R.
    destruct (wp_run _ _ (run_fn_open h m V O) _ _ R) as [A1 A2].
    destruct o as [|s|e|f].
    + pose proof (mi_type _ _ _ (wp_run _ _ (run_fn_misc h m) _ _ R)) as T1.
      rewrite T in T1. apply IH in E; trivial.
      rewrite <- T in V. pose proof (proj1 (wp_run _ _ (run_fn_vstate h m V) _ _ R)) as V1.
      now rewrite T1 in V1.
    + injection E as <- <-. destruct s; cbn; (split; [exact A1|]); try discriminate.
      now destruct (A2 n).
    + injection E as <- <-. split; [reflexivity|discriminate].
    + injection E as <- <-. split; [exact A1|discriminate].
Qed.

(* One call on an unfinished URL-encoded parser. *)
Lemma resume_url h p log s p' log' r :
  parser_type p = UrlEncoded -> vstate UrlEncoded (state_fn p) = true -> ended (state_fn p) = false ->
  resume h p log s = (p', log', r) ->
  match r with
  | ROk (SEos n) =>
      n = List.length s /\ N.of_nat n < plength p /\ plength p' = plength p - N.of_nat n /\
      ended (state_fn p') = false
  | ROk (SCallback n) => (n <= List.length s)%nat /\
      ((N.of_nat n <= plength p /\ plength p' = plength p - N.of_nat n /\ ended (state_fn p') = false) \/
       (N.of_nat n = plength p /\ state_fn p' = StFinished))
  | ROk (SFinished n) => (n <= List.length s)%nat /\ N.of_nat n = plength p /\ state_fn p' = StFinished
  | _ => True
  end.
Proof.
  intros T V O E. unfold resume in E. rewrite T in E. cbv zeta in E. rewrite cut_eq in E.
  set (n := N.to_nat (plength p)) in *. set (c := firstn n s) in *.
  destruct (parse (fuel_of c) h (Mach p (bs_new c) log)) as [m r0] eqn:P.
  pose proof (parse_facts_all _ _ _ _ _ _ P) as PF.
  pose proof (parse_open h _ (Mach p (bs_new c) log) _ _ T V O P) as [A1 A2].
  rewrite <- T in V.
  assert (LE : plength (mp m) = N.of_nat n) by (rewrite (pf_length _ _ _ _ _ PF V T); unfold n; lia).
  assert (LP : plength p = N.of_nat n) by (unfold n; lia). rewrite LP.
  assert (Hc : List.length c = Nat.min n (List.length s)) by apply firstn_length.
  destruct r0 as [[n1|n1|n1]|e|f|].
  - destruct (pf_cb _ _ _ _ _ PF n1 eq_refl) as (G1 & _).
    destruct (N.ltb_spec (plength (mp m)) (N.of_nat n1)) as [X|X]; [exfalso; lia|].
    injection E as <- <- <-. split; [lia|]. left. cbn [with_length plength state_fn]. rewrite LE.
    repeat split; [lia|exact A1].
  - destruct (pf_eos _ _ _ _ _ PF n1 eq_refl) as (G1 & G2).
    destruct (N.ltb_spec (plength (mp m)) (N.of_nat n1)) as [X|X]; [exfalso; lia|].
    destruct (N.eqb_spec (plength (mp m) - N.of_nat n1) 0) as [Z|Z].
    + destruct (parse _ h (with_p _ _)) as [m2 r2] eqn:P2 in E. injection E as <- <- <-.
      replace (fuel_of c) with (Datatypes.S (Datatypes.S (fuel_of c - 2))) in P2 by (unfold fuel_of; lia).
      apply body_finish in P2; [|reflexivity|].
      * destruct P2 as (_ & Q2 & _ & _ & _ & _ & Q7). cbn [with_p mc] in Q7. rewrite <- G2 in Q7.
        destruct Q7 as [-> | ->].
        -- repeat split; [lia|lia|exact Q2].
        -- split; [lia|]. right. split; [lia|exact Q2].
      * cbn [with_p mp p_set_state parser_type]. now rewrite (pf_type _ _ _ _ _ PF).
    + injection E as <- <- <-. cbn [with_length plength state_fn].
      repeat split; [lia|lia|lia|exact A1].
  - now destruct (A2 n1).
  - now injection E as <- <- <-.
  - now injection E as <- <- <-.
  - now injection E as <- <- <-.
Qed.

Lemma skipn_plus {X} (a b : nat) (l : list X) : skipn b (skipn a l) = skipn (a + b) l.
Proof.
  revert l. induction a as [|a IH]; intros l; [reflexivity|]. destruct l; [now rewrite !skipn_nil|]. apply IH.
Qed.

(* The whole client. *)
Lemma client_url h fuel : forall p log segs p' log' rest o,
  parser_type p = UrlEncoded -> vstate UrlEncoded (state_fn p) = true -> ended (state_fn p) = false ->
  client fuel h p log segs = (p', log', rest, o) ->
  (o = OEos -> segs = [] \/ N.of_nat (List.length (List.concat segs)) < plength p) /\
  (o = OFinished -> plength p <= N.of_nat (List.length (List.concat segs)) /\
     rest = skipn (N.to_nat (plength p)) (List.concat segs)).
Proof.
  induction fuel as [|fuel IH]; intros p log segs p' log' rest o T V O E; cbn [client] in E.
  - destruct segs; injection E as <- <- <- <-; (split; [auto|discriminate]); discriminate.
  - destruct segs as [|seg more]; [injection E as <- <- <- <-; split; [auto|discriminate]|].
    destruct (resume h p log seg) as [[p1 log1] r] eqn:R.
    pose proof (resume_url h p log seg p1 log1 r T V O R) as U.
    rewrite <- T in V.
    pose proof (resume_facts_all _ _ _ _ _ _ _ V R) as RF.
    pose proof (rf_type _ _ _ _ _ _ RF) as T1. rewrite T in T1.
    pose proof (rf_vstate _ _ _ _ _ _ RF) as V1. rewrite T1 in V1.
    cbn [List.concat]. rewrite app_length.
    destruct r as [[n|n|n]|e|f|]; try (injection E as <- <- <- <-; split; discriminate).
    + destruct U as (U1 & [(U2 & U3 & U4)|(U2 & U3)]).
      * apply IH in E; trivial. destruct E as [E1 E2]. cbn [List.concat] in E1, E2.
        rewrite app_length, skipn_length in E1, E2. rewrite U3 in E1, E2. split.
        -- intros X. destruct (E1 X) as [Y|Y]; [discriminate|]. right. lia.
        -- intros X. destruct (E2 X) as [Y1 Y2]. split; [lia|]. rewrite Y2.
           replace (N.to_nat (plength p)) with (n + N.to_nat (plength p - N.of_nat n))%nat by lia.
           rewrite <- skipn_plus. f_equal.
           rewrite skipn_app. now replace (n - List.length seg)%nat with 0%nat by lia.
      * destruct fuel as [|fuel]; cbn [client] in E; [injection E as <- <- <- <-; split; discriminate|].
        rewrite (resume_finished h p1 log1 (skipn n seg) U3) in E. injection E as <- <- <- <-.
        split; [discriminate|]. intros _. split; [lia|]. rewrite <- U2, Nat2N.id, skipn_app.
        cbn [skipn]. now replace (n - List.length seg)%nat with 0%nat by lia.
    + destruct U as (U1 & U2 & U3 & U4). apply IH in E; trivial. destruct E as [E1 E2].
      rewrite U3 in E1, E2. split.
      * intros X. destruct (E1 X) as [->|Y]; right; cbn [List.concat List.length] in *; lia.
      * intros X. destruct (E2 X) as [Y1 Y2]. split; [lia|]. rewrite Y2.
        rewrite skipn_app, (skipn_all2 seg) by lia. cbn [app]. f_equal. lia.
    + injection E as <- <- <- <-. split; [discriminate|]. intros _. destruct U as (U1 & U2 & U3).
      split; [lia|]. rewrite <- U2, Nat2N.id, skipn_app.
      now replace (n - List.length seg)%nat with 0%nat by lia.
Qed.

Lemma feed_url h q n segs p' log rest o :
  feed h (set_length (init_url_encoded q) n) segs = (p', log, rest, o) ->
  (o = OEos -> segs = [] \/ N.of_nat (List.length (List.concat segs)) < n) /\
  (o = OFinished -> n <= N.of_nat (List.length (List.concat segs)) /\
     rest = skipn (N.to_nat n) (List.concat segs)).
Proof. now apply (client_url h _ (set_length (init_url_encoded q) n)). Qed.

Lemma resume_beyond h p log s s' :
  parser_type p = UrlEncoded ->
  firstn (N.to_nat (plength p)) s = firstn (N.to_nat (plength p)) s' ->
  resume h p log s = resume h p log s'.
Proof. intros T E. unfold resume. rewrite T. cbv zeta. now rewrite !cut_eq, E. Qed.
