(* How much is reported to a handler: proofs, whole calls. *)

From Coq Require Import NArith List Bool Arith String Lia.
From Verif Require Import Bytes ByteStream Http1Model Http1Base Http1Wp Http1Term Http1Spec Http1Bound
  Http1Sem Http1Sim Http1Step Http1Misc Http1Run Http1Client Http1Api Http1BoundFacts.
Import ListNotations.
Local Open Scope N_scope.

(* ------------------------------------------------------------------ *)
(* The loop                                                             *)
(* ------------------------------------------------------------------ *)

Lemma data_app x y : data_bytes (x ++ y) = (data_bytes x + data_bytes y)%nat.
Proof. induction x as [|e x IH]; [reflexivity|]. cbn [app]. destruct e; cbn [data_bytes]; lia. Qed.

Lemma parse_bound h fuel : forall m m' r,
  vstate (parser_type (mp m)) (state_fn (mp m)) = true -> upper_ok (mp m) ->
  parse fuel h m = (m', r) ->
  exists x, ml m' = ml m ++ x /\ upper_ok (mp m') /\
    (List.length x + List.length (crest (mc m')) + match r with RFault _ => 0 | _ => owed (state_fn (mp m')) end
     <= unread m Continue + owed (state_fn (mp m)))%nat /\
    (data_bytes x + List.length (crest (mc m')) + match r with RFault _ => 0 | _ => pend (mp m') end
     <= unread m Continue + pend (mp m))%nat /\
    (parser_type (mp m) = UrlEncoded -> forall n, r = ROk (SEos n) -> (1 <= owed (state_fn (mp m')))%nat).
Proof.
  induction fuel as [|fuel IH]; intros m m' r V U E; cbn [parse] in E.
  - injection E as <- <-. exists []. rewrite app_nil_r. unfold unread. cbn [List.length data_bytes].
    split; [reflexivity|]. split; [exact U|]. repeat split; try lia. discriminate.
  - destruct (run_fn h m) as [m1 o] eqn:R.
    destruct (wp_run _ _ (run_fn_bound h m) _ _ R) as (x & X1 & X2).
    destruct (wp_run _ _ (run_fn_data_bytes h m V U) _ _ R) as (x' & X1' & X3).
    assert (x' = x) as -> by (apply app_inv_head with (ml m); congruence). clear X1'.
    pose proof (wp_run _ _ (run_fn_upper h m V U) _ _ R) as U1. unfold upper_post in U1.
    pose proof (mi_type _ _ _ (wp_run _ _ (run_fn_misc h m) _ _ R)) as T1.
    assert (V1 : vstate (parser_type (mp m1)) (state_fn (mp m1)) = true) by apply (wp_run _ _ (run_fn_vstate h m V) _ _ R).
    destruct o as [|s|e|f].
    + destruct (IH _ _ _ V1 U1 E) as (y & Y1 & Y2 & Y3 & Y4 & Y5). exists (x ++ y).
      split; [now rewrite Y1, X1, app_assoc|]. split; [exact Y2|]. rewrite app_length, data_app.
      split; [lia|]. split; [lia|]. rewrite T1 in Y5. exact Y5.
    + exists x. unfold unread in *.
      assert (Em : ml m' = ml m1 /\ crest (mc m') = crest (mc m1) /\ state_fn (mp m') = state_fn (mp m1) /\
                   pend (mp m') = pend (mp m1) /\ (upper_ok (mp m1) -> upper_ok (mp m')) /\ r = ROk s)
        by (destruct s; injection E as <- <-; do 4 (split; [reflexivity|]); (split; [exact (fun H => H)|reflexivity])).
      destruct Em as (-> & -> & -> & -> & Up & ->).
      split; [exact X1|]. split; [exact (Up U1)|]. split; [lia|]. split; [lia|].
      intros T n X. injection X as ->. rewrite T in V.
      exact (wp_run _ _ (run_fn_eos h m V) _ _ R n eq_refl).
    + injection E as <- <-. exists x. unfold unread in *.
      split; [exact X1|]. split; [|split; [cbn in *; lia|split; [cbn in *; lia|discriminate]]].
      intros T. split; [right; now left|discriminate].
    + injection E as <- <-. exists x. unfold unread in *.
      split; [exact X1|]. split; [exact U1|]. split; [lia|]. split; [lia|discriminate].
Qed.

(* ------------------------------------------------------------------ *)
(* One call                                                             *)
(* ------------------------------------------------------------------ *)

Definition ok_for (p : parser) : Prop := vstate (parser_type p) (state_fn p) = true /\ upper_ok p.

Definition left_over (r : result) (k : nat) : nat := match r with RFault _ => 0 | _ => k end.

Lemma resume_bound h p log s p' log' r :
  ok_for p -> resume h p log s = (p', log', r) ->
  exists x n, log' = log ++ x /\ (n <= List.length s)%nat /\
    match r with
    | ROk (SCallback k) | ROk (SEos k) | ROk (SFinished k) => n = k
    | RErr _ => byte_count p' = byte_count p + N.of_nat n
    | _ => True
    end /\
    (List.length x + left_over r (owed (state_fn p')) <= n + owed (state_fn p))%nat /\
    (data_bytes x + left_over r (pend p') <= n + pend p)%nat /\
    ((forall f, r <> RFault f) -> ok_for p').
Proof.
  intros [V U] E.
  assert (B : forall c m r0, parse (fuel_of c) h (Mach p (bs_new c) log) = (m, r0) ->
    exists x, ml m = log ++ x /\ ok_for (mp m) /\ r0 <> RFuel /\ (cindex (mc m) <= List.length c)%nat /\
    (forall k, r0 = ROk (SCallback k) \/ r0 = ROk (SEos k) \/ r0 = ROk (SFinished k) -> k = cindex (mc m)) /\
    (forall k, r0 = ROk (SEos k) -> k = List.length c) /\
    (forall e, r0 = RErr e -> byte_count (mp m) = byte_count p + N.of_nat (cindex (mc m))) /\
    (List.length x + left_over r0 (owed (state_fn (mp m))) <= cindex (mc m) + owed (state_fn p))%nat /\
    (data_bytes x + left_over r0 (pend (mp m)) <= cindex (mc m) + pend p)%nat /\
    (parser_type p = UrlEncoded -> forall n, r0 = ROk (SEos n) -> (1 <= owed (state_fn (mp m)))%nat)).
  { intros c m r0 P. destruct (parse_bound h _ (Mach p (bs_new c) log) _ _ V U P) as (x & X1 & X2 & X3 & X4 & X5).
    pose proof (parse_facts_all _ _ _ _ _ _ P) as PF. pose proof (pf_pos _ _ _ _ _ PF) as Po.
    cbn [mp ml] in *. unfold unread in X3, X4. cbn [mc bs_new crest cslice List.length] in X3, X4.
    exists x. split; [exact X1|]. split; [split; [exact (pf_vstate _ _ _ _ _ PF V)|exact X2]|].
    split; [exact (pf_fuel _ _ _ _ _ PF)|]. split; [lia|].
    split; [intros k [K|[K|K]]|].
    { apply (pf_cb _ _ _ _ _ PF _ K). }
    { apply (pf_eos _ _ _ _ _ PF _ K). }
    { apply (pf_fin _ _ _ _ _ PF _ K). }
    split; [intros k K; apply (pf_eos _ _ _ _ _ PF _ K)|].
    split; [intros e ->; apply (pf_count _ _ _ _ _ PF); discriminate|].
    unfold left_over. split; [lia|]. split; [lia|exact X5]. }
  unfold resume in E. destruct (parser_type p) eqn:T.
  1-3: destruct (parse _ _ _) as [m r0] eqn:P; injection E as <- <- <-;
       destruct (B _ _ _ P) as (x & X1 & X2 & X3 & X4 & X5 & X6 & X7 & X8 & X9 & X10);
       exists x, (cindex (mc m)); split; [exact X1|]; split; [exact X4|]; split;
         [destruct r0 as [[k|k|k]|e|f|]; try exact I; try (symmetry; apply X5; auto); now apply X7 with e|];
       split; [exact X8|]; split; [exact X9|]; intros _; exact X2.
  cbv zeta in E. rewrite cut_eq in E. set (c := firstn (N.to_nat (plength p)) s) in *.
  assert (Lc : (List.length c <= List.length s)%nat) by (unfold c; rewrite firstn_length; lia).
  destruct (parse (fuel_of c) h (Mach p (bs_new c) log)) as [m r0] eqn:P.
  destruct (B _ _ _ P) as (x & X1 & X2 & X3 & X4 & X5 & X6 & X7 & X8 & X9 & X10).
  assert (OkL : forall v, ok_for (with_length (mp m) v)) by (intros v; exact X2).
  destruct r0 as [[k|k|k]|e|f|]; cbn [left_over] in X8, X9.
  - exists x, k. pose proof (X5 k (or_introl eq_refl)) as K.
    destruct (_ <? _); injection E as <- <- <-; (split; [exact X1|]); (split; [lia|]); cbn [left_over];
      (split; [exact I || reflexivity|]); (split; [cbn; lia|]).
    + split; [lia|]. intros NF. now destruct (NF FOverflow).
    + split; [change (pend (with_length (mp m) (plength (mp m) - N.of_nat k))) with (pend (mp m)); lia|]. intros _. apply OkL.
  - pose proof (X5 k (or_intror (or_introl eq_refl))) as K. pose proof (X6 k eq_refl) as K2.
    destruct (_ <? _).
    { injection E as <- <- <-. exists x, k. split; [exact X1|]. split; [lia|]. split; [exact I|]. cbn [left_over].
      split; [lia|]. split; [lia|]. intros NF. now destruct (NF FOverflow). }
    destruct (_ =? 0).
    + specialize (X10 eq_refl k eq_refl).
      destruct (parse _ h (with_p _ _)) as [m2 r2] eqn:P2 in E. injection E as <- <- <-.
      replace (fuel_of c) with (S (S (fuel_of c - 2))) in P2 by (unfold fuel_of; lia).
      destruct m as [pm cm lm]. cbn [with_p mp mc ml] in *.
      apply body_finish in P2; [|reflexivity|].
      * destruct P2 as (Q1 & Q2 & _ & Q4 & _ & _ & Q7). cbn [mp mc ml] in *.
        exists (x ++ [EBodyFinished]), k. split; [now rewrite Q1, X1, app_assoc|]. split; [lia|].
        assert (Fin : owed (state_fn (mp m2)) = 0%nat /\ pend (mp m2) = 0%nat) by (unfold pend; rewrite Q2; now split).
        destruct Fin as [F1 F2].
        rewrite app_length, data_app. cbn [List.length data_bytes].
        assert (Ok2 : ok_for (mp m2)) by (split; [rewrite Q4, Q2; reflexivity|intros Y; congruence]).
        destruct Q7 as [-> | ->]; cbn [left_over]; rewrite F1, F2;
          (split; [exact K|]); (split; [lia|]); (split; [lia|]); intros _; exact Ok2.
      * pose proof (pf_type _ _ _ _ _ (parse_facts_all _ _ _ _ _ _ P)) as Y. cbn [mp] in Y. cbn [p_set_state parser_type]. congruence.
    + injection E as <- <- <-. exists x, k. split; [exact X1|]. split; [lia|]. split; [reflexivity|]. cbn [left_over].
      split; [cbn; lia|]. split; [change (pend (with_length (mp m) (plength (mp m) - N.of_nat k))) with (pend (mp m)); lia|].
      intros _. apply OkL.
  - injection E as <- <- <-. exists x, k. pose proof (X5 k (or_intror (or_intror eq_refl))) as K.
    split; [exact X1|]. split; [lia|]. split; [reflexivity|]. cbn [left_over]. split; [lia|]. split; [lia|]. intros _; exact X2.
  - injection E as <- <- <-. exists x, (cindex (mc m)).
    split; [exact X1|]. split; [lia|]. split; [now apply X7 with e|]. cbn [left_over]. split; [lia|]. split; [lia|]. intros _; exact X2.
  - injection E as <- <- <-. exists x, (cindex (mc m)).
    split; [exact X1|]. split; [lia|]. split; [exact I|]. cbn [left_over]. split; [lia|]. split; [lia|].
    intros NF. now destruct (NF f).
  - now destruct X3.
Qed.

(* ------------------------------------------------------------------ *)
(* The client                                                           *)
(* ------------------------------------------------------------------ *)

Lemma client_bound h fuel : forall p log segs p' log' rest o,
  ok_for p -> client fuel h p log segs = (p', log', rest, o) ->
  (List.length log' + List.length rest <= List.length log + List.length (List.concat segs) + owed (state_fn p))%nat /\
  (data_bytes log' + List.length rest <= data_bytes log + List.length (List.concat segs) + pend p)%nat.
Proof.
  induction fuel as [|fuel IH]; intros p log segs p' log' rest o K E; cbn [client] in E.
  - destruct segs; injection E as <- <- <- <-; cbn [List.length List.concat]; split; lia.
  - destruct segs as [|seg more]; [injection E as <- <- <- <-; cbn [List.length List.concat]; split; lia|].
    destruct (resume h p log seg) as [[p1 log1] r] eqn:R.
    destruct (resume_bound h p log seg p1 log1 r K R) as (x & n & X1 & X2 & X3 & X4 & X5 & X6).
    subst log1. cbn [List.concat]. rewrite app_length.
    assert (A : (List.length (log ++ x) = List.length log + List.length x)%nat) by apply app_length.
    pose proof (data_app log x) as D.
    destruct r as [[k|k|k]|e|f|]; cbn [left_over] in X4, X5.
    + subst n. apply IH in E; [|apply X6; discriminate]. cbn [List.concat] in E. rewrite !app_length, skipn_length in E. lia.
    + subst n. apply IH in E; [|apply X6; discriminate]. lia.
    + subst n. injection E as <- <- <- <-. rewrite !app_length, skipn_length. lia.
    + injection E as <- <- <- <-. cbn [List.length]. lia.
    + injection E as <- <- <- <-. cbn [List.length]. lia.
    + injection E as <- <- <- <-. cbn [List.length]. lia.
Qed.

Lemma ok_reset p : ok_for (reset p).
Proof.
  split; [unfold reset; cbn [parser_type]; destruct (parser_type p); reflexivity|].
  intros T. unfold reset in *. cbn [parser_type] in *. destruct (parser_type p); try discriminate T.
  split; [right; right; reflexivity|discriminate].
Qed.

Lemma reachable_ok p : reachable p -> ok_for p.
Proof.
  intros R. induction R as [|p R IH|p R IH|p R IH|p R IH|p R IH|p b R IH|p n R IH|p h log s p' log' r R IH E NF].
  - split; [reflexivity|discriminate].
  - apply ok_reset.
  - apply ok_reset.
  - apply ok_reset.
  - apply ok_reset.
  - apply ok_reset.
  - exact IH.
  - exact IH.
  - destruct (resume_bound _ _ _ _ _ _ _ IH E) as (x & n & _ & _ & _ & _ & _ & X). now apply X.
Qed.

Lemma owed_le s : (owed s <= 2)%nat.
Proof. destruct s; cbn; lia. Qed.

Lemma bound_one h p log s p' log' r :
  reachable p -> resume h p log s = (p', log', r) ->
  exists n, (n <= List.length s)%nat /\
    match r with
    | ROk (SCallback k) | ROk (SEos k) | ROk (SFinished k) => n = k
    | RErr _ => byte_count p' = byte_count p + N.of_nat n
    | _ => True
    end /\
    (List.length log' <= List.length log + n + 2)%nat.
Proof.
  intros R E. destruct (resume_bound _ _ _ _ _ _ _ (reachable_ok _ R) E) as (x & n & -> & X2 & X3 & X4 & _).
  exists n. split; [exact X2|]. split; [exact X3|]. rewrite app_length. pose proof (owed_le (state_fn p)). lia.
Qed.

Lemma bound_stream h p segs p' log rest o :
  reachable p -> feed h p segs = (p', log, rest, o) ->
  (List.length log + List.length rest <= List.length (List.concat segs) + 2)%nat.
Proof.
  intros R E. destruct (client_bound _ _ _ _ _ _ _ _ _ (reachable_ok _ R) E) as [X _].
  cbn [List.length] in X. pose proof (owed_le (state_fn p)). lia.
Qed.

Lemma bound_fresh h p0 p segs p' log rest o c :
  ((p = new \/ p = init_head p0) /\ c = 0 \/ p = init_chunked p0 /\ c = 1 \/
   (exists bd, p = set_boundary (init_multipart p0) bd /\ c = 0) \/
   (exists n, p = set_length (init_url_encoded p0) n /\ c = 2))%nat ->
  feed h p segs = (p', log, rest, o) ->
  (List.length log + List.length rest <= List.length (List.concat segs) + c)%nat /\
  (data_bytes log + List.length rest <= List.length (List.concat segs))%nat.
Proof.
  intros I E.
  assert (K : ok_for p).
  { destruct I as [[[->| ->] _]|[[-> _]|[[bd [-> _]]|[n [-> _]]]]]; first [apply (ok_reset (with_type p0 _)) | split; [reflexivity|discriminate]]. }
  destruct (client_bound _ _ _ _ _ _ _ _ _ K E) as [X Y]. cbn [List.length data_bytes] in X, Y.
  destruct I as [[[->| ->] ->]|[[-> ->]|[[bd [-> ->]]|[n [-> ->]]]]]; cbn in X, Y; split; lia.
Qed.
