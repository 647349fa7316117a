(* Pausing: proofs. *)

From Coq Require Import NArith List Bool Arith String Lia.
From Verif Require Import Bytes ByteStream Http2Model Http2Spec Http2Wp Http2Pause.
Import ListNotations.
Local Open Scope N_scope.

Lemma goes_nil h log : goes_on h log [].
Proof. intros [|y0 y] e z X; discriminate X. Qed.

Lemma goes_one h log e : h log e = true -> goes_on h log [e].
Proof.
  intros H [|y0 y] e' z X; [|destruct y; discriminate X].
  injection X as <- <-. rewrite app_nil_r. exact H.
Qed.

Lemma goes_app h log x y : goes_on h log x -> goes_on h (log ++ x) y -> goes_on h log (x ++ y).
Proof.
  intros X Y a e z E.
  destruct (app_eq_app _ _ _ _ E) as (w & [[E1 E2]|[E1 E2]]).
  - destruct w as [|w0 w].
    + rewrite app_nil_r in E1. subst a. cbn in E2. rewrite <- (app_nil_r (log ++ x)). symmetry in E2. now apply (Y [] e z).
    + cbn in E2. injection E2 as <- ->. now apply (X a e w).
  - subst a y. rewrite app_assoc. now apply (Y w e z).
Qed.

Definition pause_post (h : handler) (m m' : mach) (o : outcome) : Prop :=
  exists x, ml m' = ml m ++ x /\
  match o with
  | Exit (SCallback _) => exists e, x = [e] /\ h (ml m) e = false
  | _ => goes_on h (ml m) x
  end.

Lemma pause_none h m p c o : match o with Exit (SCallback _) => False | _ => True end ->
  pause_post h m (Mach p c (ml m)) o.
Proof.
  intros H. exists []. split; [now rewrite app_nil_r|].
  destruct o as [|[]| |]; try contradiction; apply goes_nil.
Qed.

Lemma pause_go h m p c e o : match o with Exit (SCallback _) => False | _ => True end ->
  h (ml m) e = true -> pause_post h m (Mach p c (ml m ++ [e])) o.
Proof.
  intros H A. exists [e]. split; [reflexivity|].
  destruct o as [|[]| |]; try contradiction; now apply goes_one.
Qed.

Lemma pause_stop h m p c e n : h (ml m) e = false ->
  pause_post h m (Mach p c (ml m ++ [e])) (Exit (SCallback n)).
Proof. intros F. exists [e]. split; [reflexivity|]. eauto. Qed.

Lemma run_fn_pause chk h m : wp (run_fn chk h m) (pause_post h m).
Proof.
  destruct m as [p [cb mk sl r] l]. unfold run_fn. cbn [mp].
  destruct (state_fn p) eqn:Efn; unfold_state.
  all: wp_all.
  all: first [ apply (pause_none h (Mach _ _ l)); exact I
             | apply (pause_stop h (Mach _ _ l)); assumption
             | apply (pause_go h (Mach _ _ l)); [exact I|assumption] ].
Qed.

Lemma parse_pause chk h fuel : forall m m' r, parse fuel chk h m = (m', r) ->
  exists x, ml m' = ml m ++ x /\ obeys h (ml m) x r.
Proof.
  induction fuel as [|fuel IH]; intros m m' r E; cbn [parse] in E.
  - injection E as <- <-. exists []. split; [now rewrite app_nil_r|apply goes_nil].
  - destruct (run_fn chk h m) as [m1 o] eqn:R.
    destruct (wp_run _ _ (run_fn_pause chk h m) _ _ R) as (x & X1 & X2).
    destruct o as [|s|e|f]; try (injection E as <- <-; exists x; now split).
    + apply IH in E. destruct E as (y & Y1 & Y2). exists (x ++ y).
      split; [now rewrite Y1, X1, app_assoc|]. rewrite X1 in Y2. unfold obeys in *.
      destruct r as [[n|n|n]|e|f|]; try now apply goes_app.
      destruct Y2 as (z & e & -> & Z1 & Z2). exists (x ++ z), e.
      rewrite app_assoc. repeat split; try assumption; [now apply goes_app|now rewrite app_assoc].
    + injection E as <- <-. exists x. split; [assumption|]. destruct s as [n|n|n]; try assumption.
      destruct X2 as (e & -> & F). exists [], e. rewrite app_nil_r. repeat split; try assumption. apply goes_nil.
Qed.

Lemma h2_resume_pause chk h p log s p' log' r : resume chk h p log s = (p', log', r) ->
  exists x, log' = log ++ x /\ obeys h log x r.
Proof.
  unfold resume. destruct (parse _ _ _ _) as [m r0] eqn:P. intros [= <- <- <-].
  exact (parse_pause _ _ _ _ _ _ P).
Qed.
