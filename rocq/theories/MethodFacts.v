(* Which methods are taken. *)

From Coq Require Import NArith List Bool Arith String Lia.
From Verif Require Import Bytes Http1Model Http1Spec Http1Protocol Http1Wire Http1Reader Http1Round Http1Understood
  MethodSpec.
Import ListNotations.
Local Open Scope N_scope.
Local Open Scope list_scope.

Lemma first_other m : Forall capital m \/
  exists u b v, m = u ++ b :: v /\ Forall capital u /\ ~ capital b.
Proof.
  induction m as [|a m IH]; [now left|].
  assert (D : capital a \/ ~ capital a) by (unfold capital, byte in *; lia).
  destruct D as [D|D]; [|right; exists [], a, m; auto].
  destruct IH as [F|(u & b & v & -> & F & N)]; [left; now constructor|].
  right. exists (a :: u), b, v. split; [reflexivity|]. split; [now constructor|exact N].
Qed.

Lemma capital_upper b : capital b -> upperb b = true.
Proof. intros [A B]. unfold upperb. apply andb_true_iff. split; now apply N.leb_le. Qed.

Lemma other_upper b : ~ capital b -> upperb b = false.
Proof.
  intros N. unfold upperb. apply not_true_is_false. intros X. apply N. apply andb_true_iff in X.
  destruct X as [A B]. apply N.leb_le in A, B. now split.
Qed.

Lemma no_begin (m r w : list byte) : Forall (fun c => tchar c = true) m -> Forall (fun c : byte => c <> 32) w ->
  begins (w ++ [47]) (m ++ 32 :: r) = false.
Proof.
  intros F. revert w. induction F as [|c m C F IH]; intros [|x w] W; cbn [app begins]; try reflexivity.
  - inversion W as [|? ? W1 W2]; subst. apply N.eqb_neq in W1. now rewrite W1.
  - replace (47 =? c) with false; [reflexivity|]. symmetry. apply N.eqb_neq. intros <-. discriminate C.
  - inversion W as [|? ? W1 W2]; subst. rewrite IH by assumption. apply andb_false_r.
Qed.

Lemma no_end (m r w : list byte) : Forall (fun c : byte => c <> 32) w -> begins (m ++ 32 :: r) w = false.
Proof.
  revert w. induction m as [|c m IH]; intros [|x w] W; cbn [app begins]; try reflexivity;
    inversion W as [|? ? W1 W2]; subst.
  - replace (32 =? x) with false; [reflexivity|]. symmetry. apply N.eqb_neq. congruence.
  - rewrite IH by assumption. apply andb_false_r.
Qed.

Lemma method_read u : forall l b s k, Forall capital u -> ~ capital b ->
  many StRequestMethod upperb (as_is KMethod) k l (u ++ b :: s) = k (l ++ map (FByte KMethod) u) (b :: s).
Proof.
  induction u as [|c u IH]; intros l b s k F N; cbn [app many map].
  - now rewrite other_upper, app_nil_r.
  - inversion F as [|? ? F1 F2]; subst. rewrite capital_upper, IH by assumption. unfold as_is. now rewrite <- app_assoc.
Qed.

Lemma strip_token (b : byte) m : tchar b = true -> strip (b :: m) = b :: m.
Proof.
  intros T. cbn [strip]. replace ((b =? 13) || (b =? 10) || (b =? 9) || (b =? 32)) with false; [reflexivity|].
  symmetry. rewrite !orb_false_iff, !N.eqb_neq. repeat split; intros ->; discriminate T.
Qed.

Lemma bad_method_read w u b v r : blank w -> Forall (fun c => tchar c = true) (u ++ b :: v) ->
  Forall capital u -> ~ capital b ->
  exists l, read_head (w ++ (u ++ b :: v) ++ 32 :: r) = (l, Wrong (ErMethod b)).
Proof.
  intros W T U N. unfold read_head. rewrite strip_blank by assumption.
  assert (S : strip ((u ++ b :: v) ++ 32 :: r) = (u ++ b :: v) ++ 32 :: r).
  { destruct u as [|a u]; cbn [app] in *; apply strip_token; now inversion T. }
  rewrite S. change (bs "HTTP/") with ([72; 84; 84; 80] ++ [47]).
  rewrite no_begin by (assumption || (repeat constructor; discriminate)).
  rewrite no_end by (repeat constructor; discriminate).
  assert (B : b <> 32).
  { intros ->. apply Forall_app in T. destruct T as [_ T]. inversion T. discriminate. }
  unfold request_line, some, check. rewrite <- app_assoc. cbn [app]. destruct u as [|a u].
  - cbn [app]. rewrite other_upper by assumption. eexists. reflexivity.
  - cbn [app]. pose proof U as U2. inversion U2 as [|? ? U3 U4]; subst. rewrite capital_upper by assumption.
    change (a :: u ++ b :: v ++ 32 :: r) with ((a :: u) ++ b :: v ++ 32 :: r).
    rewrite method_read by assumption. unfold expect, next. apply N.eqb_neq in B. rewrite B. eexists. reflexivity.
Qed.

Lemma method_taken h q req m tail segs :
  wf_request req -> m <> [] -> Forall (fun c => tchar c = true) m ->
  hd 0 m <> 72 \/ (9 <= List.length (strip (hd [] segs)))%nat ->
  List.concat segs = render_request (with_method req m) ++ tail ->
  exists p' log rest o, feed h (init_head q) segs = (p', log, rest, o) /\
    (Forall capital m /\ o = OFinished /\ rest = tail /\ flat log = seen_request (with_method req m) \/
     exists u b v, m = u ++ b :: v /\ Forall capital u /\ ~ capital b /\ o = OError (ErMethod b)).
Proof.
  intros W NE T Hm E. destruct (first_other m) as [F|(u & b & v & -> & F & N)].
  - destruct (request_round h q (with_method req m) tail segs) as (p' & log & G & L); try assumption.
    + destruct W as (W1 & W2 & W3 & W4 & W5 & W6 & W7). unfold wf_request, with_method.
      cbn [q_blank q_method q_url q_version q_headers]. auto 10.
    + exists p', log, tail, OFinished. split; [exact G|]. left. auto.
  - destruct W as (W1 & _).
    assert (X : exists r, render_request (with_method req (u ++ b :: v)) ++ tail =
                  q_blank req ++ (u ++ b :: v) ++ 32 :: r).
    { eexists. unfold render_request, with_method. cbn [q_blank q_method q_url q_version q_headers].
      rewrite <- (app_assoc (q_blank req)), <- (app_assoc (u ++ b :: v)). reflexivity. }
    destruct X as [r X]. rewrite X in E. destruct (bad_method_read _ u b v r W1 T F N) as [l L].
    assert (NS : segs <> []).
    { intros ->. cbn in E. symmetry in E. apply app_eq_nil in E. destruct E as [_ E].
      apply app_eq_nil in E. destruct E as [E _]. now apply NE. }
    assert (K : hok (strip (List.concat segs)) = true \/ (9 <= List.length (strip (hd [] segs)))%nat).
    { destruct Hm as [Hm|Hm]; [left|now right]. rewrite E, strip_blank by assumption.
      destruct (u ++ b :: v) as [|a z]; [congruence|]. cbn [app]. inversion T; subst.
      rewrite strip_token by assumption. cbn [hok hd] in *. apply N.eqb_neq in Hm. now rewrite Hm. }
    pose proof (head_understood h q segs NS K) as U. rewrite E, L in U.
    destruct (feed h (init_head q) segs) as [[[p' log] rest] o]. cbn [understood snd] in U.
    destruct U as [(e' & -> & ->) _]. exists p', log, rest, (OError (ErMethod b)).
    split; [reflexivity|]. right. exists u, b, v. auto.
Qed.
