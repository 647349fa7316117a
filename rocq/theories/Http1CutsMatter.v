(* A method beginning with H loses letters exactly when it is cut. *)

From Coq Require Import NArith List Bool Arith String Lia.
From Verif Require Import Bytes Http1Model Http1Spec Http1Protocol Http1Wire Http1Reader Http1Reads Http1Cuts Http1CutsFacts.
Import ListNotations.
Local Open Scope N_scope.

(* What was seen before does not matter to k. *)
Definition framed (k : reader) : Prop :=
  forall x l s, k (x ++ l) s = (x ++ fst (k l s), snd (k l s)).

Lemma framed_const v : framed (fun l _ => (l, v)).
Proof. intros x l s. reflexivity. Qed.
Lemma framed_complete : framed complete.
Proof. intros x l s. reflexivity. Qed.
Lemma framed_wrong e : framed (wrong e).
Proof. intros x l s. reflexivity. Qed.
Lemma framed_crash : framed crash.
Proof. intros x l s. reflexivity. Qed.
Lemma framed_say ev k : framed k -> framed (say ev k).
Proof. intros K x l s. unfold say. rewrite <- app_assoc. apply K. Qed.
Lemma framed_next a f : (forall b, framed (f b)) -> framed (next a f).
Proof. intros F x l [|b s]; [reflexivity|]. apply F. Qed.
Lemma framed_if (c : bool) k k' : framed k -> framed k' -> framed (if c then k else k').
Proof. now destruct c. Qed.
Lemma framed_check a p err k : framed k -> framed (check a p err k).
Proof. intros K x l [|b s]; [reflexivity|]. cbn [check]. destruct (p b); [apply K|reflexivity]. Qed.
Lemma framed_expect a c err k : framed k -> framed (expect a c err k).
Proof. intros K. apply framed_next. intros b. apply framed_if; [exact K|apply framed_wrong]. Qed.
Lemma framed_many a p show k : framed k -> framed (many a p show k).
Proof.
  intros K x l s. revert l. induction s as [|b s IH]; intros l; [reflexivity|]. cbn [many].
  destruct (p b); [rewrite <- app_assoc; apply IH|apply K].
Qed.
Lemma framed_some a a' p show err k : framed k -> framed (some a a' p show err k).
Proof. intros K. now apply framed_check, framed_many. Qed.
Lemma framed_digits last err stop k : (forall v, framed (k v)) -> forall m v, framed (digits m last v stop err k).
Proof.
  intros K. induction m as [|a m IH]; intros v; [now apply framed_expect|].
  apply framed_next; intros b; apply framed_if; [apply K|]. apply framed_if; [apply IH|apply framed_wrong].
Qed.
Lemma framed_number a1 a2 a3 a4 stop err k : (forall v, framed (k v)) -> framed (number a1 a2 a3 a4 stop err k).
Proof. intros K. apply framed_next. intros b. apply framed_if; [now apply framed_digits|apply framed_wrong]. Qed.
Lemma framed_text k : framed k -> forall m, framed (text m k).
Proof.
  intros K m x l s. revert m l. induction s as [|b s IH]; intros m l; [reflexivity|]. cbn [text].
  repeat rewrite <- app_assoc.
  destruct m; repeat match goal with |- context[if ?c then _ else _] => destruct c end;
    try apply IH; try reflexivity; now apply framed_expect.
Qed.
Lemma framed_rounds f : (forall k, framed k -> framed (f k)) -> forall n, framed (rounds n f).
Proof. intros F. induction n as [|n IH]; [apply framed_const|]. now apply F. Qed.
Lemma framed_lines k : framed k -> framed (lines k).
Proof.
  intros K x l s. apply framed_rounds. clear x l s. intros again A x l [|b s]; [reflexivity|].
  cbv beta zeta iota.
  destruct (b =? 13); [now apply framed_expect, framed_say|].
  destruct (padb b); [now apply framed_text|].
  apply framed_check, framed_many, framed_next. intros c. apply framed_if.
  - now apply framed_many, framed_check, framed_text.
  - apply framed_if; [apply framed_crash|apply framed_wrong].
Qed.
Lemma framed_version k : framed k -> framed (request_version k).
Proof. intros K. apply framed_number. intros v. apply framed_number. intros w. now apply framed_say. Qed.
Lemma framed_fields : framed fields.
Proof. apply framed_say, framed_expect, framed_lines, framed_complete. Qed.

Definition after_method : reader :=
  expect StRequestMethod 32 ErMethod
  (some StRequestUrl1 StRequestUrl2 visible_byte (as_is KUrl) ErUrl
  (expect StRequestUrl2 32 ErUrl
  (expect StRequestHttp1 72 ErVersion
  (expect StRequestHttp2 84 ErVersion
  (expect StRequestHttp3 84 ErVersion
  (expect StRequestHttp4 80 ErVersion
  (expect StRequestHttp5 47 ErVersion
  (request_version fields)))))))).

Lemma framed_after : framed after_method.
Proof.
  apply framed_expect, framed_some. repeat apply framed_expect. apply framed_version, framed_fields.
Qed.

Lemma without_split w : forall s, exists x, s = x ++ without w s /\ pre x w.
Proof.
  induction w as [|c w IH]; intros s.
  - exists []. split; [now destruct s|now exists []].
  - destruct s as [|b s]; [exists []; split; [reflexivity|now exists (c :: w)]|]. cbn [without].
    destruct (N.eqb_spec b c) as [->|]; [|exists []; split; [reflexivity|now exists (c :: w)]].
    destruct (IH s) as (x & E & y & ->). exists (c :: x). split; [cbn [app]; now f_equal|]. now exists y.
Qed.

(* Without the first letters, less is seen. *)
Lemma letters_lost x w : x <> [] -> forallb upperb x = true ->
  fst (request_line [] (x ++ w)) <> fst (request_line [] w).
Proof.
  intros NE U. unfold request_line. fold after_method.
  assert (E : some StDetect1 StRequestMethod upperb (as_is KMethod) ErMethod after_method [] (x ++ w) =
              many StRequestMethod upperb (as_is KMethod) after_method [] (x ++ w)).
  { destruct x as [|b x]; [congruence|]. unfold some. cbn [app check]. cbn [forallb] in U.
    apply andb_true_iff in U. destruct U as [-> _]. reflexivity. }
  rewrite E, many_app by exact U. clear E. cbn [app].
  assert (L : List.length (flat_map (as_is KMethod) x) = List.length x)
    by (clear; induction x; cbn; auto).
  rewrite <- (app_nil_r (flat_map _ _)). rewrite (framed_many _ _ _ _ framed_after). cbn [fst].
  intros E. apply (f_equal (@List.length _)) in E. rewrite app_length, L in E.
  destruct x as [|c x]; [congruence|]. cbn [List.length] in E.
  unfold some in E. destruct w as [|b w]; [discriminate E|]. cbn [check] in E.
  destruct (upperb b) eqn:Ub; [lia|]. cbn [fst List.length] in E. lia.
Qed.

Lemma cuts_matter segs :
  hok (strip (List.concat segs)) = false -> (List.length (first_part segs) < 9)%nat ->
  fst (read_cut_head segs) <> fst (read_head (List.concat segs)).
Proof.
  intros H Y. rewrite read_head_from. unfold read_cut_head. apply Nat.leb_gt in Y. rewrite Y.
  destruct (hok_bad _ H) as (y & E & C). rewrite E. unfold head_from.
  change (begins (bs "HTTP/") (72 :: y)) with (begins (bs "TTP/") y).
  change (begins (72 :: y) (bs "HTTP/")) with (begins y (bs "TTP/")).
  destruct (begins (bs "TTP/") y) eqn:B1; [rewrite cmpb_begins in C by auto; discriminate|].
  destruct (begins y (bs "TTP/")) eqn:B2; [rewrite cmpb_begins in C by auto; discriminate|].
  rewrite without_http. destruct (without_split (bs "TTP") y) as (x & Ex & z & Ez).
  intros X. symmetry in X. revert X. rewrite Ex at 1.
  apply (letters_lost (72 :: x)); [discriminate|].
  assert (U : forallb upperb (bs "TTP") = true) by reflexivity. rewrite Ez, forallb_app in U.
  apply andb_true_iff in U. destruct U as [U _]. exact U.
Qed.

Lemma cuts_matter_iff segs :
  read_cut_head segs = read_head (List.concat segs) <->
  hok (strip (List.concat segs)) = true \/ (9 <= List.length (first_part segs))%nat.
Proof.
  split; [|apply cut_head_whole]. intros E.
  destruct (hok (strip (List.concat segs))) eqn:H; [auto|]. right.
  destruct (Nat.le_gt_cases 9 (List.length (first_part segs))) as [Y|Y]; [exact Y|].
  destruct (cuts_matter segs H Y). now rewrite E.
Qed.
