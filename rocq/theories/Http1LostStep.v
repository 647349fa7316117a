(* What an error loses: one step. *)

From Coq Require Import NArith List Bool Arith String Lia.
From Verif Require Import Bytes ByteStream Http1Model Http1Base Http1Wp Http1Term Http1Spec Http1Sem Http1Sim Http1Step.
Import ListNotations.
Local Open Scope N_scope.

(* L is l and the bytes of one item that are, in the slice c, followed by one
   byte; there are none if the error e is about a boundary. *)
Definition no_bd (e : perror) : Prop := match e with ErMultipartBoundary _ => False | _ => True end.
Definition lost (e : perror) (c : list byte) (l L : list fevent) : Prop :=
  exists k d, L = l ++ map (FByte k) d /\ (d = [] \/ no_bd e /\ exists z b, c = z ++ d ++ [b]).

Lemma lost_refl e c l : lost e c l l.
Proof. exists KMethod, []. rewrite app_nil_r. auto. Qed.

Lemma lost_map e l k d b : no_bd e -> lost e (d ++ [b]) l (l ++ map (FByte k) d).
Proof. intros N. exists k, d. split; [reflexivity|]. right. split; [exact N|]. now exists [], b. Qed.

Section Step3.
  Variables (h : handler) (clen : list fevent -> option N).
  Hypothesis Hclen : forall l, h_clen h l = clen (flat l).

Definition lost_post (m m' : mach) (o : outcome) : Prop :=
  match o with
  | Fail e => exists L e' R, sem clen m = AFail L e' R /\ lost e (cslice (mc m')) (flat (ml m')) L
  | _ => True
  end.

Definition lostst (s : pstate) : Prop :=
  forall m, state_fn (mp m) = s -> inv m -> wp (run_fn h m) (lost_post m).

Ltac lost_tac :=
  rewrite ?app_nil_r;
  first [ apply lost_refl
        | solve [apply lost_map; exact Logic.I]
        | rewrite <- ?map_app, ?app_assoc; solve [apply lost_map; exact Logic.I]
        | rewrite <- ?app_assoc, <- ?map_app, ?app_assoc; solve [apply lost_map; exact Logic.I] ].
Ltac lost_leaf :=
  unfold sem, psem, alpha; cbn [mp mc ml crest cslice];
  psimp; rw_p; cbn_a; rewrite ?app_nil_r; rewrite ?flat_app, ?flat_data.
Ltac lost_close :=
  rewrite ?flat_app, ?flat_data, ?map_app, <- ?app_assoc; cbn [map app flat flat_map flat1];
  rewrite ?app_nil_r;
  first [ eexists; eexists; eexists; split; [reflexivity|solve [lost_tac]] | byte_contra ].
Ltac lost_auto :=
  sim_start; stopP; unfold lost_post; try exact Logic.I; lost_leaf;
  first [ solve [lost_close]
        | solve [loops; lost_close]
        | solve [bytes1; lost_close]
        | solve [loops; bytes1; lost_close]
        | solve [bytes1; bytes1; lost_close]
        | solve [loops; bytes1; bytes1; lost_close]
        | solve [erewrite aexec_eps by reflexivity; lost_close]
        | idtac ].

Ltac detect_x :=
  match goal with D : dok _ (?b :: _) |- _ =>
    cbn [dok] in D; lits;
    let E := fresh "E" in
    apply cmpb_cons in D; destruct D as [E D];
    exfalso; vm_compute in E; subst b;
    match goal with H : (_ =? _) = false |- _ => vm_compute in H; discriminate H end
  end.

Lemma run_fn_lost m : inv m -> wp (run_fn h m) (lost_post m).
Proof.
  intros I. destruct (state_fn (mp m)) eqn:E; revert m E I.
  1: { lost_auto; (eexists _, _, r; split; [|apply lost_refl]; destruct r; reflexivity). }
  all: lost_auto.
  1-4: detect_x.
  all: repeat match goal with
  | H : negb _ = true |- _ => apply negb_true_iff in H
  | H : negb _ = false |- _ => apply negb_false_iff in H
  end.
  1: { do 2 bytes1. lost_close. }
  1: { do 3 bytes1. lost_close. }
  rewrite ?Heqo in *. specialize (B eq_refl). destruct B as [B1 B2].
  match goal with
    | _ : boundary ?p = Some ?bd |- context [aexec _ _ _ _ _ (?b :: ?r)] =>
      destruct (bd_slice bd (b :: r) (N.to_nat (get_upper14 p))) as (s2 & E2 & L2)
  end.
  boolP. match goal with H : get_lower14 p <> 0 |- _ => idtac | H : (get_lower14 p =? 0) = false |- _ => apply N.eqb_neq in H end.
  edestruct (boundary_error clen l0 (get_lower14 p) (plength p) (flat l) (b :: r')) as (b' & y & E & Ly); [eassumption|eassumption|eassumption|eassumption|].
  eexists _, _, y. split; [exact E|apply lost_refl].
Qed.
End Step3.
