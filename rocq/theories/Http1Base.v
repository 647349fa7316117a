(* Basic lemmas on the HTTP/1 model: bit fields, collection loops, and the
   elementary operations a state function is made of. *)

From Coq Require Import NArith List Bool Arith String Lia.
From Verif Require Import Bytes ByteStream Http1Model.
Import ListNotations.
Local Open Scope N_scope.

(* ------------------------------------------------------------------ *)
(* Bit fields                                                           *)
(* ------------------------------------------------------------------ *)

Lemma land_mask14 v : N.land v MASK14 = v mod 2 ^ 14.
Proof. change MASK14 with (N.ones 14). apply N.land_ones. Qed.

(* The 14 bits of v starting at bit s. *)
Definition field14 (v s : N) : N := N.land (N.shiftr v s) MASK14.

Lemma tb_mask14 i : N.testbit MASK14 i = (i <? 14).
Proof.
  change MASK14 with (N.ones 14).
  destruct (i <? 14) eqn:E.
  - apply N.ltb_lt in E. now apply N.ones_spec_low.
  - apply N.ltb_ge in E. now apply N.ones_spec_high.
Qed.

Lemma tb_field14 v s i : N.testbit (field14 v s) i = N.testbit v (i + s) && (i <? 14).
Proof.
  unfold field14. now rewrite N.land_spec, N.shiftr_spec', tb_mask14.
Qed.

Lemma tb_u32 v i : N.testbit (u32 v) i = N.testbit v i && (i <? 32).
Proof.
  unfold u32. destruct (i <? 32) eqn:E.
  - apply N.ltb_lt in E. now rewrite N.mod_pow2_bits_low, andb_true_r.
  - apply N.ltb_ge in E. now rewrite N.mod_pow2_bits_high, andb_false_r.
Qed.

Lemma tb_not32 v i : N.testbit (not32 v) i = xorb (N.testbit v i) (i <? 32).
Proof.
  unfold not32. rewrite N.lxor_spec. change (2 ^ 32 - 1) with (N.ones 32).
  destruct (i <? 32) eqn:E.
  - apply N.ltb_lt in E. now rewrite N.ones_spec_low.
  - apply N.ltb_ge in E. now rewrite N.ones_spec_high.
Qed.

Lemma tb_shiftl v s i : N.testbit (N.shiftl v s) i = (s <=? i) && N.testbit v (i - s).
Proof.
  destruct (s <=? i) eqn:E.
  - apply N.leb_le in E. now rewrite N.shiftl_spec_high'.
  - apply N.leb_gt in E. now rewrite N.shiftl_spec_low.
Qed.

(* v with its 14 bits starting at bit s replaced, as set_lower14!/set_upper14! do. *)
Definition put14 (d v s : N) : N :=
  N.lor (N.land d (not32 (u32 (N.shiftl MASK14 s)))) (u32 (N.shiftl (u32 v) s)).

Lemma field_put_same d v s : s <= 18 -> field14 (put14 d v s) s = v mod 2 ^ 14.
Proof.
  intros Hs. apply N.bits_inj. intros i.
  rewrite tb_field14. unfold put14.
  rewrite N.lor_spec, N.land_spec, tb_not32, !tb_u32, !tb_shiftl, tb_mask14, tb_u32.
  destruct (i <? 14) eqn:E.
  - apply N.ltb_lt in E.
    rewrite N.mod_pow2_bits_low by assumption.
    replace (i + s - s) with i by lia.
    rewrite (proj2 (N.leb_le s (i + s))) by lia.
    rewrite (proj2 (N.ltb_lt (i + s) 32)) by lia.
    rewrite (proj2 (N.ltb_lt i 32)) by lia.
    rewrite (proj2 (N.ltb_lt i 14)) by lia.
    simpl. now rewrite andb_false_r, !andb_true_r.
  - apply N.ltb_ge in E.
    now rewrite andb_false_r, N.mod_pow2_bits_high.
Qed.

Lemma get_set_lower p v : get_lower14 (set_lower14 p v) = v mod 2 ^ 14.
Proof. exact (field_put_same (bit_data p) v 4 ltac:(lia)). Qed.

Lemma get_set_upper p v : get_upper14 (set_upper14 p v) = v mod 2 ^ 14.
Proof. exact (field_put_same (bit_data p) v 18 ltac:(lia)). Qed.

Lemma get_lower_set_upper p v : get_lower14 (set_upper14 p v) = get_lower14 p.
Proof.
  change (field14 (put14 (bit_data p) v 18) 4 = field14 (bit_data p) 4).
  apply N.bits_inj. intros i.
  rewrite !tb_field14. unfold put14.
  rewrite N.lor_spec, N.land_spec, tb_not32, !tb_u32, !tb_shiftl, tb_mask14, tb_u32.
  destruct (i <? 14) eqn:E; [|now rewrite !andb_false_r].
  apply N.ltb_lt in E.
  rewrite (proj2 (N.leb_gt 18 (i + 4))) by lia.
  rewrite (proj2 (N.ltb_lt (i + 4) 32)) by lia.
  simpl. now rewrite !orb_false_r, !andb_true_r.
Qed.

Lemma get_upper_set_lower p v : v < 2 ^ 14 -> get_upper14 (set_lower14 p v) = get_upper14 p.
Proof.
  intros Hv.
  change (field14 (put14 (bit_data p) v 4) 18 = field14 (bit_data p) 18).
  apply N.bits_inj. intros i.
  rewrite !tb_field14. unfold put14.
  rewrite N.lor_spec, N.land_spec, tb_not32, !tb_u32, !tb_shiftl, tb_mask14, tb_u32.
  destruct (i <? 14) eqn:E; [|now rewrite !andb_false_r].
  apply N.ltb_lt in E.
  rewrite (proj2 (N.leb_le 4 (i + 18))) by lia.
  rewrite (proj2 (N.ltb_lt (i + 18) 32)) by lia.
  rewrite (proj2 (N.ltb_ge (i + 18 - 4) 14)) by lia.
  replace (N.testbit v (i + 18 - 4)) with false.
  - simpl. now rewrite !orb_false_r, !andb_true_r.
  - symmetry. destruct (N.eq_dec v 0) as [->|]; [apply N.bits_0|].
    apply N.bits_above_log2. apply N.log2_lt_pow2 in Hv; lia.
Qed.

Lemma lower_lt p : get_lower14 p < 2 ^ 14.
Proof.
  unfold get_lower14. rewrite land_mask14. now apply N.mod_lt.
Qed.

Lemma upper_lt p : get_upper14 p < 2 ^ 14.
Proof.
  unfold get_upper14. rewrite land_mask14. now apply N.mod_lt.
Qed.

(* ------------------------------------------------------------------ *)
(* Equality of byte strings                                             *)
(* ------------------------------------------------------------------ *)

Lemma beq_eq a b : beq a b = true <-> a = b.
Proof.
  revert b. induction a as [|x a IH]; destruct b as [|y b]; simpl; split; intros H;
    try reflexivity; try discriminate.
  - apply andb_true_iff in H as [H1 H2]. apply N.eqb_eq in H1. apply IH in H2. now subst.
  - injection H as -> ->. rewrite N.eqb_refl. now apply IH.
Qed.

Lemma starts_with_true c lit :
  bs_starts_with c lit = Some true -> crest c = (lit ++ skipn (List.length lit) (crest c))%list.
Proof.
  unfold bs_starts_with. destruct (_ <=? _)%nat; [|discriminate].
  intros [= H]. apply beq_eq in H. rewrite <- H at 1. symmetry. apply firstn_skipn.
Qed.

Lemma starts_with_false c lit :
  bs_starts_with c lit = Some false -> forall r, crest c <> (lit ++ r)%list.
Proof.
  unfold bs_starts_with. destruct (_ <=? _)%nat; [|discriminate].
  intros [= H] r E. rewrite E in H.
  rewrite firstn_app, firstn_all, Nat.sub_diag, firstn_O, app_nil_r in H.
  assert (beq lit lit = true) by now apply beq_eq. congruence.
Qed.

Lemma starts_with_some c lit :
  (List.length lit <= List.length (crest c))%nat -> bs_starts_with c lit <> None.
Proof.
  unfold bs_starts_with. intros H. apply Nat.leb_le in H. rewrite H. discriminate.
Qed.

(* ------------------------------------------------------------------ *)
(* Collection loops                                                     *)
(* ------------------------------------------------------------------ *)

(* What a collection loop starting at rest r with slice sl returns. *)
Definition collect_post (stop : byte -> option bool) (mk : nat) (sl r : list byte)
           (res : collected) : Prop :=
  match res with
  | CEos c =>
      exists cb, c = Ctx cb mk (sl ++ r) [] /\ Forall (fun b => stop b = Some false) r
  | CStop c =>
      exists x b y, r = (x ++ b :: y)%list /\ Forall (fun b => stop b = Some false) x /\
                    stop b = Some true /\ c = Ctx b mk ((sl ++ x) ++ [b]) y
  | CPanic c =>
      exists x b y, r = (x ++ b :: y)%list /\ Forall (fun b => stop b = Some false) x /\
                    stop b = None /\ c = Ctx b mk ((sl ++ x) ++ [b]) y
  end.

Lemma collect_loop_spec stop r : forall cb mk sl,
  collect_post stop mk sl r (collect_loop stop cb mk sl r).
Proof.
  induction r as [|b r IH]; intros cb mk sl; simpl.
  - exists cb. rewrite app_nil_r. auto.
  - destruct (stop b) as [[]|] eqn:E.
    + exists [], b, r. rewrite app_nil_r. auto.
    + specialize (IH b mk (sl ++ [b])%list).
      destruct (collect_loop stop b mk (sl ++ [b]) r); simpl in *.
      * destruct IH as (x & b' & y & -> & F & Hb & ->).
        exists (b :: x), b', y. repeat split; auto.
        now rewrite <- !app_assoc.
      * destruct IH as (cb' & -> & F). exists cb'. rewrite <- app_assoc. auto.
      * destruct IH as (x & b' & y & -> & F & Hb & ->).
        exists (b :: x), b', y. repeat split; auto.
        now rewrite <- !app_assoc.
    + exists [], b, r. rewrite app_nil_r. auto.
Qed.

Lemma bs_collect_spec stop c :
  collect_post stop (cmark c) (cslice c) (crest c) (bs_collect stop c).
Proof. apply collect_loop_spec. Qed.

Lemma removelast_snoc {X} (l : list X) x : removelast (l ++ [x]) = l.
Proof. apply removelast_last. Qed.

Lemma last_snoc {X} (l : list X) x d : last (l ++ [x]) d = x.
Proof. apply last_last. Qed.

Lemma replay_snoc b mk sl r : bs_replay (Ctx b mk (sl ++ [b]) r) = Ctx b mk sl (b :: r).
Proof.
  unfold bs_replay. cbn [cslice cbyte cmark crest].
  destruct (sl ++ [b])%list eqn:E; [now apply app_eq_nil in E|].
  now rewrite <- E, removelast_snoc, last_snoc.
Qed.
