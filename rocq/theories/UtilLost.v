(* What FieldIterator yields of fields with quoted values before the end, and of
   incomplete last names. *)

From Coq Require Import NArith List Bool Arith Lia.
From Verif Require Import Bytes ByteStream UtilModel UtilSpec UtilFacts UtilFields UtilIter UtilAhead.
Import ListNotations.
Local Open Scope N_scope.

Lemma ahead_runs norm d t items : delimiter d -> Ahead norm d t items ->
  forall r items' e res, (forall first, Runs (fstep norm d) first r items' e res) ->
  forall first, Runs (fstep norm d) first (t ++ r) (items ++ items') e res.
Proof.
  intros (D255 & Dws & D61 & D47 & D34) A r items' e res R.
  induction A as [|t i s items F A IH]; intros first; [apply R|].
  change e with (@nil iter_error ++ e). change ((i :: items) ++ items') with (i :: items ++ items').
  rewrite <- app_assoc. change ((d :: s) ++ r) with (d :: s ++ r).
  destruct F as [w n W P|w n w' v W P W' V S].
  - apply runs_item with (s ++ r); auto. eapply fs_name_delim; [now apply fname_plain|]. repeat split; auto. tauto.
  - apply runs_item with (s ++ r); auto.
    replace ((w ++ n ++ 61 :: w' ++ v) ++ d :: s ++ r) with ((w ++ n) ++ 61 :: w' ++ v ++ d :: s ++ r)
      by (rewrite <- !app_assoc; cbn [app]; now rewrite <- !app_assoc).
    eapply fs_value_delim; eauto; [now apply fname_plain|]. split; auto.
Qed.

Lemma quotes_shape (w n w' q w'' r : list byte) :
  (w ++ n ++ 61 :: w' ++ 34 :: q ++ 34 :: w'') ++ r = (w ++ n) ++ 61 :: w' ++ 34 :: q ++ 34 :: w'' ++ r.
Proof. rewrite <- !app_assoc. cbn [app]. rewrite <- !app_assoc. cbn [app]. now rewrite <- app_assoc. Qed.

Lemma quoted_inner norm d t items u i b c r : delimiter d ->
  Ahead norm d t items -> Quotes norm d u i -> ~ ws b -> c <> d ->
  field_all (t ++ u ++ b :: c :: r) d norm = (items, [EValue c], NNone).
Proof.
  intros D A Q B C. unfold field_all. rewrite <- (app_nil_r items).
  eapply (field_runs _ _ true); [|auto|reflexivity].
  apply ahead_runs; auto. intros first. apply runs_stop with []; [|auto].
  destruct Q as [w n w' q v w'' W P W' Q W'']. rewrite quotes_shape.
  eapply fs_quoted_bad; eauto. now apply fname_plain.
Qed.

Lemma quoted_then norm d t items u i b r items' : delimiter d ->
  Ahead norm d t items -> Quotes norm d u i -> ~ ws b -> Fields norm d r items' ->
  field_all (t ++ u ++ b :: d :: r) d norm = (items ++ i :: items', [], NNone).
Proof.
  intros D A Q B F. unfold field_all.
  eapply (field_runs _ _ true); [|auto|reflexivity].
  apply ahead_runs; auto. intros first.
  destruct Q as [w n w' q v w'' W P W' Q W'']. rewrite quotes_shape.
  change (@nil iter_error) with (@nil iter_error ++ []).
  eapply runs_item with r; [|now apply fields_runs].
  eapply fs_quoted_delim; eauto. now apply fname_plain.
Qed.

Lemma incomplete_opens norm (n : list byte) : n <> [] -> last n 0 = 47 \/ (norm = true /\ upper (last n 0)) -> opens norm n = true.
Proof.
  intros NE H. unfold opens. destruct (rev n) as [|b l] eqn:E; [reflexivity|].
  apply (f_equal (@rev _)) in E. rewrite rev_involutive in E. cbn in E. subst n. rewrite last_last in H.
  destruct H as [->|[-> U]]; [reflexivity|]. apply upper_true in U. rewrite U. now rewrite orb_true_r.
Qed.

Lemma incomplete_last norm d t items w n w' : delimiter d ->
  Ahead norm d t items -> Forall ws w -> plain_name d n -> n <> [] ->
  last n 0 = 47 \/ (norm = true /\ upper (last n 0)) -> Forall ws w' ->
  field_all (t ++ w ++ n ++ w') d norm = (items, [], NNone).
Proof.
  intros D A W P NE H W'. unfold field_all. rewrite <- (app_nil_r items).
  eapply (field_runs _ _ true); [|auto|reflexivity].
  apply ahead_runs; auto. intros first. apply runs_stop with []; [|auto].
  pose proof (fname_plain norm d w W n P) as F. rewrite (incomplete_opens _ _ NE H) in F.
  rewrite app_assoc. eapply fs_none. instantiate (1 := map (lower norm) n).
  revert F. generalize (w ++ n). induction W' as [|b w' B W' IH]; intros x F; [now rewrite app_nil_r|].
  replace (x ++ b :: w') with ((x ++ [b]) ++ w') by now rewrite <- app_assoc.
  apply IH. now constructor.
Qed.
