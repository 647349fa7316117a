(* Responses without a reason are not accepted. *)

From Coq Require Import NArith List Bool Arith String Lia.
From Verif Require Import Bytes Http1Model Http1Spec Http1Wire Http1Reader Http1Cuts Http1Round Http1Understood.
Import ListNotations.
Local Open Scope N_scope.
Local Open Scope list_scope.

Lemma digit_ok b : Http1Wire.digit b -> digitb b = true.
Proof. intros [A B]. unfold digitb. apply andb_true_iff. split; apply N.leb_le; assumption. Qed.

Lemma digit_not b c : Http1Wire.digit b -> c < 48 -> (b =? c) = false.
Proof. intros [A B] C. apply N.eqb_neq. unfold byte in *. lia. Qed.

Lemma digits_stop more last v stop err k l s : digits more last v stop err k l (stop :: s) = k v l s.
Proof. destruct more; cbn [digits]; unfold expect, next; now rewrite N.eqb_refl. Qed.

Lemma digits_next a more last v stop err k b l s : Http1Wire.digit b -> stop < 48 ->
  digits (a :: more) last v stop err k l (b :: s) = digits more last (10 * v + (b - 48)) stop err k l s.
Proof. intros D S. cbn [digits]. unfold next. now rewrite (digit_not b stop D S), (digit_ok b D). Qed.

Lemma number_read a1 a2 a3 a4 stop err k ds l s : stop < 48 ->
  (1 <= List.length ds <= 3)%nat -> Forall Http1Wire.digit ds ->
  number a1 a2 a3 a4 stop err k l (ds ++ stop :: s) = k (decimal ds) l s.
Proof.
  intros S L F. destruct ds as [|x [|y [|z [|u ds]]]]; cbn [List.length] in L; try lia;
    repeat match goal with H : Forall _ (_ :: _) |- _ => inversion H; clear H; subst end;
    unfold number, next at 1; cbn [app]; rewrite digit_ok by assumption;
    rewrite ?digits_next by assumption; rewrite digits_stop; reflexivity.
Qed.

Lemma code_read a1 a2 a3 err k x y z l s : Http1Wire.digit x -> Http1Wire.digit y -> Http1Wire.digit z ->
  code [a1; a2; a3] 0 err k l (x :: y :: z :: s) = k (decimal [x; y; z]) l s.
Proof.
  intros X Y Z. cbn [code]. unfold next. now rewrite (digit_ok x X), (digit_ok y Y), (digit_ok z Z).
Qed.

Lemma reason_read r : forall l b s, Forall (fun c => reasonb c = true) r -> reasonb b = false ->
  many StResponseStatus2 reasonb (as_is KStatus) (expect StResponseStatus2 13 ErStatus fields) l (r ++ b :: s) =
  expect StResponseStatus2 13 ErStatus fields (l ++ map (FByte KStatus) r) (b :: s).
Proof.
  induction r as [|c r IH]; intros l b s F B; cbn [app many map].
  - now rewrite B, app_nil_r.
  - inversion F as [|? ? F1 F2]; subst. rewrite F1, IH by assumption. unfold as_is. now rewrite <- app_assoc.
Qed.

Lemma bad_reason_read w v c r b tail :
  blank w -> wf_version v -> List.length c = 3%nat -> Forall Http1Wire.digit c ->
  Forall (fun x : byte => 32 <= x /\ x <> 127) r -> b < 32 \/ b = 127 -> (b = 13 -> r = []) ->
  exists l, read_head (w ++ render_version v ++ [32] ++ c ++ [32] ++ r ++ b :: tail) = (l, Wrong (ErStatus b)).
Proof.
  intros W (V1 & V2 & V3 & V4) C1 C2 R B N.
  assert (R' : Forall (fun c => reasonb c = true) r).
  { revert R. apply Forall_impl. intros x [X1 X2]. unfold reasonb. apply andb_true_iff.
    split; [now apply N.leb_le|]. now apply negb_true_iff, N.eqb_neq. }
  assert (B' : reasonb b = false).
  { unfold reasonb. destruct B as [B| ->]; [|reflexivity]. replace (32 <=? b) with false; [reflexivity|].
    symmetry. now apply N.leb_gt. }
  unfold read_head. rewrite strip_blank by assumption. unfold render_version. rewrite <- !app_assoc.
  cbn [app]. change (bs "HTTP/") with [72; 84; 84; 80; 47].
  cbn [app strip]. change ((72 =? 13) || (72 =? 10) || (72 =? 9) || (72 =? 32)) with false. cbv iota.
  cbn [begins]. rewrite !N.eqb_refl. cbn [andb skipn].
  unfold status_line, response_version. rewrite number_read by (assumption || lia).
  rewrite number_read by (assumption || lia). unfold say at 1.
  destruct c as [|x [|y [|z [|u c]]]]; try discriminate C1.
  repeat match goal with H : Forall _ (_ :: _) |- _ => inversion H; clear H; subst end.
  cbn [app]. rewrite code_read by assumption. unfold expect at 1, next at 1. rewrite N.eqb_refl. unfold say at 1.
  unfold some, check. destruct r as [|c r].
  - cbn [app]. rewrite B'. eexists. reflexivity.
  - cbn [app]. pose proof R' as R2. inversion R2 as [|? ? F1 F2]; subst. rewrite F1.
    change (c :: r ++ b :: tail) with ((c :: r) ++ b :: tail). rewrite reason_read by assumption.
    unfold expect, next. replace (b =? 13) with false; [eexists; reflexivity|].
    symmetry. apply N.eqb_neq. intros X. now specialize (N X).
Qed.

Lemma bad_reason h q w v c r b tail segs :
  blank w -> wf_version v -> List.length c = 3%nat -> Forall Http1Wire.digit c ->
  Forall (fun x : byte => 32 <= x /\ x <> 127) r -> b < 32 \/ b = 127 -> (b = 13 -> r = []) ->
  List.concat segs = w ++ render_version v ++ [32] ++ c ++ [32] ++ r ++ b :: tail ->
  exists p' log rest, feed h (init_head q) segs = (p', log, rest, OError (ErStatus b)).
Proof.
  intros W V C1 C2 R B N E.
  assert (NE : segs <> []).
  { intros ->. cbn in E. symmetry in E. apply app_eq_nil in E. destruct E as [_ E]. discriminate E. }
  assert (K : hok (strip (List.concat segs)) = true).
  { rewrite E, strip_blank by assumption. unfold render_version. rewrite <- app_assoc.
    assert (X : forall r, hok (strip (bs "HTTP/" ++ r)) = true) by (now intros [|? ?]). apply X. }
  destruct (bad_reason_read w v c r b tail W V C1 C2 R B N) as [l L].
  pose proof (head_understood h q segs NE (or_introl K)) as U. rewrite E, L in U.
  destruct (feed h (init_head q) segs) as [[[p' log] rest] o]. cbn [understood snd] in U.
  destruct U as [(e' & -> & ->) _]. now exists p', log, rest.
Qed.
