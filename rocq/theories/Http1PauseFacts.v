(* Pausing: proofs. *)

From Coq Require Import NArith List Bool Arith String Lia.
From Verif Require Import Bytes ByteStream Http1Model Http1Base Http1Wp Http1Term Http1Spec Http1Pause
  Http1Sem Http1Sim Http1Step Http1Misc Http1Run Http1Client Http1Api.
Import ListNotations.
Local Open Scope N_scope.

Lemma goes_nil h log : goes_on h log [].
Proof. intros [|y0 y] e z X; discriminate X. Qed.

Lemma goes_one h log e : (asked e -> h_ret h log e = true) -> goes_on h log [e].
Proof.
  intros H [|y0 y] e' z X A; [|destruct y; discriminate X].
  injection X as <- <-. rewrite app_nil_r. now apply H.
Qed.

Lemma goes_app h log x y : goes_on h log x -> goes_on h (log ++ x) y -> goes_on h log (x ++ y).
Proof.
  intros X Y a e z E A.
  destruct (app_eq_app _ _ _ _ E) as (w & [[E1 E2]|[E1 E2]]).
  - destruct w as [|w0 w].
    + rewrite app_nil_r in E1. subst a. cbn in E2. rewrite <- (app_nil_r (log ++ x)). symmetry in E2. now apply (Y [] e z).
    + cbn in E2. injection E2 as <- ->. now apply (X a e w).
  - subst a y. rewrite app_assoc. now apply (Y w e z).
Qed.

Definition pause_post (h : handler) (m m' : mach) (o : outcome) : Prop :=
  exists x, ml m' = ml m ++ x /\
  match o with
  | Exit (SCallback _) => exists e, x = [e] /\ asked e /\ h_ret h (ml m) e = false
  | _ => goes_on h (ml m) x
  end.

Lemma pause_none h m p c o : match o with Exit (SCallback _) => False | _ => True end ->
  pause_post h m (Mach p c (ml m)) o.
Proof.
  intros H. exists []. split; [now rewrite app_nil_r|].
  destruct o as [|[]| |]; try contradiction; apply goes_nil.
Qed.

Lemma pause_go h m p c e o : match o with Exit (SCallback _) => False | _ => True end ->
  (asked e -> h_ret h (ml m) e = true) -> pause_post h m (Mach p c (ml m ++ [e])) o.
Proof.
  intros H A. exists [e]. split; [reflexivity|].
  destruct o as [|[]| |]; try contradiction; now apply goes_one.
Qed.

Lemma pause_stop h m p c e n : asked e -> h_ret h (ml m) e = false ->
  pause_post h m (Mach p c (ml m ++ [e])) (Exit (SCallback n)).
Proof. intros A F. exists [e]. split; [reflexivity|]. eauto. Qed.

Lemma run_fn_pause h m : wp (run_fn h m) (pause_post h m).
Proof.
  destruct m as [p [cb mk sl r] l]. unfold run_fn. cbn [mp mc cslice].
  destruct (state_fn p) eqn:Efn.
  all: unfold_state; lits.
  all: wp_all.
  all: first [ apply (pause_none h (Mach _ _ l)); exact I
             | apply (pause_stop h (Mach _ _ l)); [discriminate|assumption]
             | apply (pause_go h (Mach _ _ l)); [exact I|intros; first [assumption|congruence]] ].
Qed.

Lemma parse_pause h fuel : forall m m' r, parse fuel h m = (m', r) ->
  exists x, ml m' = ml m ++ x /\ obeys h (ml m) x r.
Proof.
  induction fuel as [|fuel IH]; intros m m' r E; cbn [parse] in E.
  - injection E as <- <-. exists []. split; [now rewrite app_nil_r|apply goes_nil].
  - destruct (run_fn h m) as [m1 o] eqn:R.
    destruct (wp_run _ _ (run_fn_pause h m) _ _ R) as (x & X1 & X2).
    destruct o as [|s|e|f]; try (injection E as <- <-; exists x; now split).
    + apply IH in E. destruct E as (y & Y1 & Y2). exists (x ++ y).
      split; [now rewrite Y1, X1, app_assoc|]. rewrite X1 in Y2. unfold obeys in *.
      destruct r as [[n|n|n]|e|f|]; try now apply goes_app.
      destruct Y2 as (z & e & -> & Z1 & Z2 & Z3). exists (x ++ z), e.
      rewrite app_assoc. repeat split; try assumption; [now apply goes_app|now rewrite app_assoc].
    + injection E as <- <-. exists x. split; [assumption|]. destruct s as [n|n|n]; try assumption.
      destruct X2 as (e & -> & A & F). exists [], e. rewrite app_nil_r. repeat split; try assumption. apply goes_nil.
Qed.

Lemma obeys_app h log x y r : goes_on h log x -> obeys h (log ++ x) y r -> obeys h log (x ++ y) r.
Proof.
  intros X Y. unfold obeys in *. destruct r as [[n|n|n]|e|f|]; try now apply goes_app.
  destruct Y as (z & e & -> & Z1 & Z2 & Z3). exists (x ++ z), e.
  rewrite app_assoc. repeat split; try assumption; [now apply goes_app|now rewrite app_assoc].
Qed.

Lemma resume_pause_v h p log s p' log' r :
  vstate (parser_type p) (state_fn p) = true -> resume h p log s = (p', log', r) ->
  exists x, log' = log ++ x /\ obeys h log x r.
Proof.
  intros R E. unfold resume in E.
  destruct (parser_type p) eqn:T.
  1-3: destruct (parse _ _ _) as [m r0] eqn:P; injection E as <- <- <-; exact (parse_pause _ _ _ _ _ P).
  cbv zeta in E. rewrite cut_eq in E. set (c := firstn (N.to_nat (plength p)) s) in *.
  destruct (parse (fuel_of c) h (Mach p (bs_new c) log)) as [m r0] eqn:P.
  destruct (parse_pause _ _ _ _ _ P) as (x & X1 & X2). cbn [ml] in X1, X2.
  pose proof (parse_facts_all _ _ _ _ _ _ P) as PF.
  assert (pf_length0 : plength (mp m) = plength p) by (apply (pf_length _ _ _ _ _ PF); [now rewrite T|exact T]).
  assert (Hc : List.length c = Nat.min (N.to_nat (plength p)) (List.length s)) by apply firstn_length.
  destruct r0 as [[n|n|n]|e|f|].
  - destruct (pf_cb _ _ _ _ _ PF n eq_refl) as (A1 & _). destruct (N.ltb_spec (plength (mp m)) (N.of_nat n)) as [X|X]; [exfalso; lia|].
    injection E as <- <- <-. eauto.
  - destruct (N.ltb_spec (plength (mp m)) (N.of_nat n)) as [X|X].
    { injection E as <- <- <-. eauto. }
    destruct (_ =? 0); [|injection E as <- <- <-; eauto].
    destruct (parse _ h (with_p _ _)) as [m2 r2] eqn:P2 in E. injection E as <- <- <-.
    destruct (parse_pause _ _ _ _ _ P2) as (y & Y1 & Y2). cbn [with_p ml] in Y1, Y2. rewrite X1 in Y1, Y2.
    exists (x ++ y). split; [now rewrite Y1, app_assoc|]. now apply obeys_app.
  - injection E as <- <- <-. eauto.
  - injection E as <- <- <-. eauto.
  - injection E as <- <- <-. eauto.
  - injection E as <- <- <-. eauto.
Qed.

Lemma resume_pause h p log s p' log' r :
  reachable p -> resume h p log s = (p', log', r) ->
  exists x, log' = log ++ x /\ obeys h log x r.
Proof. intros R. apply resume_pause_v. now apply reachable_vstate. Qed.
