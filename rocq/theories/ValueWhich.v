(* Which values are taken, and which stop being read. *)

From Coq Require Import NArith List Bool Arith Lia.
From Verif Require Import Bytes Http1Protocol Http1Wire ValueSpec.
Import ListNotations.
Local Open Scope N_scope.

Lemma text_then x : forall v m, field_text_ok m v = true -> field_text_ok m (v ++ x) = field_text_ok Plain x.
Proof.
  induction v as [|b v IH]; intros m H.
  - destruct m; try discriminate H. reflexivity.
  - cbn [app field_text_ok] in *. destruct m.
    + destruct (b =? 34); [now apply IH|]. apply andb_true_iff in H. destruct H as [-> H]. now apply IH.
    + destruct (b =? 34); [now apply IH|]. destruct (b =? 92); [now apply IH|].
      apply andb_true_iff in H. destruct H as [-> H]. now apply IH.
    + apply andb_true_iff in H. destruct H as [-> H]. now apply IH.
Qed.

Lemma quoted_ok w : quoted w -> forall x, field_text_ok Quoted (w ++ x) = field_text_ok Quoted x.
Proof.
  induction 1 as [|w c Q IH A B C|w c Q IH A]; intros x; [reflexivity| |].
  - rewrite <- app_assoc, IH. cbn [app field_text_ok]. apply N.eqb_neq in B, C. now rewrite B, C, A.
  - rewrite <- app_assoc, IH. cbn [app field_text_ok].
    change (92 =? 34) with false. change (92 =? 92) with true. cbv iota.
    destruct A as [A1 A2]. apply N.leb_le in A1, A2. now rewrite A1, A2.
Qed.

Definition begun (v : list byte) : Prop := v = [] \/ starts_visible v.

Lemma begun_less v (b : byte) : begun (v ++ [b]) -> begun v.
Proof. intros [E|S]; [now destruct v|]. destruct v as [|a v]; [now left|now right]. Qed.

Lemma begun_quote v w : begun (v ++ 34 :: w) -> starts_visible (v ++ [34]).
Proof. intros [E|S]; [now destruct v|]. destruct v as [|a v]; [reflexivity|exact S]. Qed.

Lemma so_far v : Forall (fun c => field_byte c = true) v -> begun v ->
  field_text_ok Plain v = true \/
  (exists v1 w, v = v1 ++ 34 :: w /\ field_text_ok Plain v1 = true /\ quoted w) \/
  (exists v1 w, v = v1 ++ 34 :: w ++ [92] /\ field_text_ok Plain v1 = true /\ quoted w) \/
  exists v1 b v2, v = v1 ++ b :: v2 /\ stops v1 b.
Proof.
  induction v as [|b v IH] using rev_ind; intros F S; [now left|].
  apply Forall_app in F. destruct F as [F B]. inversion B as [|? ? B1 _]; subst.
  destruct (IH F (begun_less _ _ S)) as [O|[(v1 & w & -> & O & W)|[(v1 & w & -> & O & W)|(v1 & c & v2 & -> & X)]]].
  - destruct (N.eqb_spec b 34) as [->|N].
    + right. left. exists v, []. split; [reflexivity|split; [assumption|constructor]].
    + left. rewrite (text_then _ _ _ O). cbn [field_text_ok]. apply N.eqb_neq in N. now rewrite N, B1.
  - destruct (N.eqb_spec b 34) as [->|N1]; [|destruct (N.eqb_spec b 92) as [->|N2]].
    + left. rewrite <- app_assoc, (text_then _ _ _ O). cbn [app field_text_ok].
      change (34 =? 34) with true. cbv iota. now rewrite (quoted_ok _ W).
    + right. right. left. exists v1, w. split; [now rewrite <- app_assoc|]. now split.
    + right. left. exists v1, (w ++ [b]). split; [now rewrite <- app_assoc|]. split; [assumption|]. now constructor.
  - right. destruct (N.leb_spec 32 b) as [L|L]; [destruct (N.leb_spec b 122) as [M|M]|].
    + left. exists v1, (w ++ [92; b]). split; [|split; [assumption|now constructor]].
      rewrite <- !app_assoc. cbn [app]. now rewrite <- app_assoc.
    + right. right. exists (v1 ++ 34 :: w ++ [92]), b, []. split; [reflexivity|].
      apply begun_less, begun_quote in S. apply stops_escaped; auto.
    + right. right. exists (v1 ++ 34 :: w ++ [92]), b, []. split; [reflexivity|].
      apply begun_less, begun_quote in S. apply stops_escaped; auto.
  - right. right. right. exists v1, c, (v2 ++ [b]). split; [now rewrite <- app_assoc|assumption].
Qed.

Lemma which v : field_value v -> Forall (fun b => b <> 255) v ->
  starts_visible v /\ field_text_ok Plain v = true \/
  exists v1 b v2, v ++ [13] = v1 ++ b :: v2 /\ stops v1 b.
Proof.
  intros V X.
  destruct v as [|a v]; [right; exists [], 13, []; split; [reflexivity|]; now constructor|].
  destruct V as [V|(V1 & _ & V)]; [discriminate|]. cbn [hd] in V1.
  destruct (visible_byte a) eqn:Va.
  - assert (F : Forall (fun c => field_byte c = true) (a :: v)).
    { rewrite Forall_forall in *. intros c I. specialize (V c I). specialize (X c I).
      unfold field_byte, text_byte, field_vchar, byte in *. rewrite !andb_true_iff, !orb_true_iff, !andb_true_iff, negb_true_iff.
      rewrite N.ltb_lt, N.leb_le, N.eqb_eq, N.eqb_neq. lia. }
    assert (S : begun (a :: v)) by (right; exact Va).
    destruct (so_far _ F S) as [O|[(v1 & w & E & O & W)|[(v1 & w & E & O & W)|(v1 & b & v2 & E & O)]]]; [now left| | |].
    + right. exists (a :: v), 13, []. split; [reflexivity|]. rewrite E in *.
      apply stops_quoted; auto; try reflexivity. exact (begun_quote _ _ S).
    + right. exists (a :: v), 13, []. split; [reflexivity|]. rewrite E in *.
      apply stops_escaped; auto; [exact (begun_quote _ _ S)|]. left. reflexivity.
    + right. exists v1, b, (v2 ++ [13]). split; [|exact O]. rewrite E. now rewrite <- app_assoc.
  - right. exists [], a, (v ++ [13]). split; [reflexivity|]. unfold field_vchar, byte in *.
    constructor; [assumption|lia|lia].
Qed.
