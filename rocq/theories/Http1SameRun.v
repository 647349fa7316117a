(* Pausing changes nothing: proofs, from one step to the client. *)

From Coq Require Import NArith List Bool Arith String Lia.
From Verif Require Import Bytes ByteStream Http1Model Http1Base Http1Wp Http1Term Http1Spec
  Http1Sem Http1Sim Http1Step Http1Misc Http1Run Http1Client Http1Api Http1Pause Http1PauseFacts Http1Same.
Import ListNotations.
Local Open Scope N_scope.

(* Nothing happens on an empty piece. *)
Lemma quiet h p cb l : needs_byte (state_fn p) = true -> state_fn p <> StDetect1 ->
  run_fn h (Mach p (Ctx cb 0 [] []) l) = (Mach p (Ctx cb 0 [] []) l, Exit (SEos 0)).
Proof.
  intros N D. unfold run_fn. cbn [mp]. destruct (state_fn p); try discriminate N; try congruence; reflexivity.
Qed.

Lemma patient_goes h m m' o : run_fn (patient h) m = (m', o) -> forall n, o <> Exit (SCallback n).
Proof.
  intros E n ->. destruct (wp_run _ _ (run_fn_pause (patient h) m) _ _ E) as (x & _ & e & _ & _ & F). discriminate F.
Qed.

(* The machine with which a paused parser is called again. *)
Definition fresh (u : bool) (m : mach) : mach :=
  let n := cindex (mc m) in
  let p := add_count (mp m) n in
  Mach (if u then with_length p (plength p - N.of_nat n) else p) (bs_new (crest (mc m))) (ml m).

(* Calling again and again until the handler does not pause. *)
Inductive trail (u : bool) (h : handler) : mach -> mach -> outcome -> Prop :=
| trail_one m m' o : loop h m m' o -> (forall n, o <> Exit (SCallback n)) -> trail u h m m' o
| trail_more m m1 n m' o : loop h m m1 (Exit (SCallback n)) -> trail u h (fresh u m1) m' o -> trail u h m m' o.

Lemma trail_step u h m m1 m' o : run_fn h m = (m1, Continue) -> trail u h m1 m' o -> trail u h m m' o.
Proof.
  intros R T. inversion T as [? ? ? L N|? m2 n ? ? L T']; subst.
  - apply trail_one; [|exact N]. now apply loop_step with m1.
  - apply trail_more with m2 n; [|exact T']. now apply loop_step with m1.
Qed.

(* Where two runs end. *)
Definition frel (u : bool) (k : nat) (a b : mach * outcome) : Prop :=
  prel u k (mp (fst a)) (mp (fst b)) /\ ml (fst a) = ml (fst b) /\
  crest (mc (fst a)) = crest (mc (fst b)) /\ cindex (mc (fst b)) = (k + cindex (mc (fst a)))%nat /\
  byte_count (mp (fst a)) = byte_count (mp (fst b)) + N.of_nat k /\
  match snd a, snd b with
  | Exit (SEos n), Exit (SEos n') => n' = (k + n)%nat
  | Exit (SFinished n), Exit (SFinished n') => n' = (k + n)%nat
  | Fail e, Fail e' => e = e'
  | Faulted f, Faulted f' => f = f'
  | _, _ => False
  end.

Lemma fresh_rel u k m m2 : mrel u k m m2 -> mrel u (k + cindex (mc m)) (fresh u m) (fst (remark m2)).
Proof.
  destruct m as [[bd bo bc ln ty st fn] [cb mk sl r] l].
  destruct m2 as [[bd' bo' bc' ln' ty' st' fn'] [cb' mk' sl' r'] l'].
  unfold mrel, prel, fresh, remark, with_c, bs_mark, add_count, with_length, bs_new, cindex.
  cbn [fst mp mc ml crest cbyte cmark cslice bit_data boundary byte_count plength parser_type state state_fn].
  intros ((-> & -> & -> & -> & -> & L) & -> & -> & -> & -> & ->).
  destruct u; [destruct L as [L0 ->]|subst ln];
  cbn [bit_data boundary byte_count plength parser_type state state_fn];
  repeat split; auto; unfold cindex; cbn [cmark cslice]; try lia.
Qed.

Lemma patient_trail u h m m' o : loop (patient h) m m' o -> forall k m1,
  mrel u k m1 m -> (uses_byte (state_fn (mp m)) = true -> cbyte (mc m1) = cbyte (mc m)) ->
  exists k' m1' o1, trail u h m1 m1' o1 /\ frel u k' (m1', o1) (m', o).
Proof.
  intros L. induction L as [m m' o R N|m m2 m' o R L IH]; intros k m1 M U.
  - pose proof (run_fn_rel u k (patient h) m1 m M U) as O. rewrite R in O.
    destruct (run_fn (patient h) m1) as [m1' o1] eqn:R1. pose proof (patient_goes _ _ _ _ R1) as G.
    destruct O as [M' O]. cbn [fst snd] in M', O.
    assert (F : frel u k (m1', o1) (m', o)).
    { destruct M' as (P & Ml & Sl & Re & Mk & Bc). repeat split; cbn [fst snd]; auto; try apply P.
      - unfold cindex. rewrite Sl. lia.
      - destruct o1 as [|[n|n|n]|e|f], o as [|[n'|n'|n']|e'|f']; try contradiction; auto.
        exfalso. exact (G n eq_refl). }
    assert (C1 : o1 <> Continue).
    { intros ->. destruct o as [|[]| |]; try contradiction. }
    pose proof (run_fn_paused h m1) as P. rewrite R1 in P. destruct P as [P|(m3 & P & U3 & [E|[E Cr]])].
    + exists k, m1', o1. split; [|exact F]. apply trail_one; [|exact G]. now apply loop_exit.
    + unfold remark in E. injection E as -> ->. congruence.
    + unfold exit_eos in E. injection E as <- ->.
      destruct o as [|[n|n|n]|e|f]; try contradiction. cbn in O. subst n.
      assert (Nb : needs_byte (state_fn (mp m1')) = true).
      { pose proof (wp_run _ _ (run_fn_misc _ _) _ _ R1) as Mi. eapply (mi_eos _ _ _ Mi). reflexivity. }
      assert (D : state_fn (mp m1') <> StDetect1) by (intros D; rewrite D in U3; discriminate U3).
      exists (k + cindex (mc m1'))%nat, (fresh u m1'), (Exit (SEos 0)). split.
      * apply trail_more with m1' (cindex (mc m1')); [apply loop_exit; [exact P|discriminate]|].
        apply trail_one; [|discriminate]. apply loop_exit; [|discriminate].
        unfold fresh. rewrite Cr. unfold bs_new. apply quiet; destruct u; assumption.
      * pose proof (fresh_rel _ _ _ _ M') as (P' & Ml & Sl & Re & Mk & Bc).
        unfold remark, with_c in P', Ml, Re, Bc. cbn [fst mp mc ml] in P', Ml, Re, Bc.
        repeat split; cbn [fst snd]; auto; try apply P'.
  - pose proof (run_fn_rel u k (patient h) m1 m M U) as O. rewrite R in O.
    destruct (run_fn (patient h) m1) as [m12 o1] eqn:R1. destruct O as [M' O]. cbn [fst snd] in M', O.
    destruct o1 as [|[]| |]; try contradiction.
    pose proof (run_fn_paused h m1) as P. rewrite R1 in P. destruct P as [P|(m3 & P & U3 & [E|[E Cr]])].
    + destruct (IH k m12 M' O) as (k' & m1' & o1 & T & F). exists k', m1', o1.
      split; [|exact F]. now apply trail_step with m12.
    + unfold remark in E. injection E as ->.
      destruct (IH (k + cindex (mc m3))%nat (fresh u m3)) as (k' & m1' & o1 & T & F).
      * destruct M' as (P' & Ml & Sl & Re & Mk & Bc).
        unfold with_c, bs_mark in *. cbn [mp mc ml crest cslice cmark] in *.
        unfold mrel, fresh, add_count. cbn [mp mc ml].
        unfold prel in P' |- *. destruct P' as (? & ? & ? & ? & ? & L').
        destruct u; [destruct L' as [L0 L']|]; cbn [bit_data boundary byte_count plength parser_type state state_fn
          with_length bs_new crest cslice cmark]; repeat split; auto; try lia.
      * intros B. exfalso. destruct M' as ((_ & _ & _ & _ & Fn & _) & _).
        unfold with_c in Fn. cbn [mp] in Fn. rewrite <- Fn in B. congruence.
      * exists k', m1', o1. split; [|exact F]. apply trail_more with m3 (cindex (mc m3)); [|exact T].
        apply loop_exit; [exact P|discriminate].
    + unfold exit_eos in E. discriminate E.
Qed.
