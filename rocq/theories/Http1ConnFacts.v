(* Connections: proofs. *)

From Coq Require Import NArith List Bool Arith Lia.
From Verif Require Import Bytes Http1Model Http1Spec Http1Wire Http1Conn Http1Base Http1Wp Http1Run Http1Client Http1Api Http1Url Http1Count
  Http1Sim Http1Round Http1Round2 Http1Shift.
Import ListNotations.
Local Open Scope N_scope.

Lemma turn_client h fuel : forall p log segs p' log' segs' o,
  turn fuel h p log segs = (p', log', segs', o) ->
  exists rest, client fuel h p log segs = (p', log', rest, o) /\
    (o = OFinished -> rest = List.concat segs' /\ segs' <> []).
Proof.
  induction fuel as [|fuel IH]; intros p log [|seg more] p' log' segs' o E; cbn [turn client] in *;
    try (injection E as <- <- <- <-; eexists; split; [reflexivity|intros X; discriminate X]).
  destruct (resume h p log seg) as [[p1 log1] [[n|n|n]|e|f|]];
    try (injection E as <- <- <- <-; eexists; split; [reflexivity|]; intros X; discriminate X);
    try (now apply IH).
  injection E as <- <- <- <-. eexists. split; [reflexivity|]. intros _. split; [reflexivity|discriminate].
Qed.

Lemma flat_app (a b : list event) : flat (a ++ b) = flat a ++ flat b.
Proof. unfold flat. apply flat_map_app. Qed.

Lemma answers_shift clen before : forall ps acc,
  answers clen (before ++ acc) ps -> answers (fun l => clen (before ++ l)) acc ps.
Proof.
  induction ps as [|p ps IH]; intros acc A; cbn [answers] in *; [exact I|].
  rewrite <- !app_assoc in A. destruct A as [A1 A2]. split; [exact A1|]. now apply IH.
Qed.

(* One message. *)
Lemma turn_message h clen p m log tail segs :
  (forall l, h_clen h l = clen (flat l)) -> wf_message clen (flat log) m -> segs <> [] ->
  List.concat segs = wire m ++ tail ->
  exists p' evs segs', turn (calls segs) h (prepare m p) log segs = (p', log ++ evs, segs', OFinished) /\
    flat evs = seen m /\ List.concat segs' = tail /\ segs' <> [].
Proof.
  intros Hc W NE E.
  assert (F : exists p' evs, feed (shift log h) (prepare m p) segs = (p', evs, tail, OFinished) /\ flat evs = seen m).
  { destruct m as [q|r|cs ts|bd ps|ps w]; cbn [wf_message prepare wire seen] in *.
    - apply request_round; [apply W|exact E|left; apply W].
    - apply response_round; [apply W|exact E].
    - apply chunked_round; [apply W|apply W|exact E].
    - destruct W as (W1 & W2 & W3 & W4).
      apply multipart_round with (clen := fun l => clen (flat log ++ l)); auto.
      + intros l. cbn [shift h_clen]. now rewrite Hc, flat_app.
      + apply answers_shift. now rewrite app_nil_r.
    - apply url_round; auto. }
  destruct F as (p' & calls' & F & S). unfold feed in F.
  destruct (turn (calls segs) h (prepare m p) log segs) as [[[p1 log1] segs1] o1] eqn:T.
  destruct (turn_client _ _ _ _ _ _ _ _ _ T) as (rest & C & R).
  rewrite <- (app_nil_r log) in C. rewrite client_shift, F in C. injection C as <- <- <- <-.
  destruct (R eq_refl) as [R1 R2].
  exists p', calls', segs1. rewrite ?(app_nil_r log). repeat split; auto.
Qed.

Lemma serve_messages h clen : (forall l, h_clen h l = clen (flat l)) ->
  forall ms p log tail segs, wf_messages clen (flat log) ms -> segs <> [] ->
  List.concat segs = flat_map wire ms ++ tail ->
  exists p' calls segs', serve h p log ms segs = (p', log ++ calls, segs', OFinished) /\
    flat calls = flat_map seen ms /\ List.concat segs' = tail.
Proof.
  intros Hc. induction ms as [|m ms IH]; intros p log tail segs W NE E; cbn [serve flat_map] in *.
  - exists p, [], segs. rewrite app_nil_r. now repeat split.
  - destruct W as [W1 W2]. rewrite <- app_assoc in E.
    destruct (turn_message h clen p m log _ segs Hc W1 NE E) as (p1 & calls1 & segs1 & T & S1 & E1 & N1).
    rewrite T. rewrite <- S1, <- flat_app in W2.
    destruct (IH p1 (log ++ calls1) tail segs1 W2 N1 E1) as (p2 & calls2 & segs2 & X & S2 & E2).
    exists p2, (calls1 ++ calls2), segs2. rewrite X, app_assoc, flat_app, S1, S2. now repeat split.
Qed.

Lemma h1_connection h clen p ms tail segs :
  (forall l, h_clen h l = clen (flat l)) -> wf_messages clen [] ms -> segs <> [] ->
  List.concat segs = flat_map wire ms ++ tail ->
  exists p' log segs', serve h p [] ms segs = (p', log, segs', OFinished) /\
    flat log = flat_map seen ms /\ List.concat segs' = tail.
Proof. intros Hc W NE E. exact (serve_messages h clen Hc ms p [] tail segs W NE E). Qed.

Lemma client_rest h fuel : forall p log segs p' log' rest o,
  client fuel h p log segs = (p', log', rest, o) -> (List.length rest <= List.length (List.concat segs))%nat.
Proof.
  induction fuel as [|fuel IH]; intros p log segs p' log' rest o E; cbn [client] in E;
    (destruct segs as [|seg more]; [injection E as <- <- <- <-; apply Nat.le_refl|]).
  - injection E as <- <- <- <-. apply Nat.le_refl.
  - destruct (resume h p log seg) as [[p1 log1] r]. cbn [List.concat]. rewrite app_length.
    destruct r as [[n|n|n]|e|f|]; try (injection E as <- <- <- <-; cbn [List.concat List.length]; rewrite ?app_length, ?skipn_length; lia).
    + apply IH in E. cbn [List.concat] in E. rewrite app_length, skipn_length in E. lia.
    + apply IH in E. lia.
Qed.

Lemma serve_count h : forall ms p log segs p' log' segs',
  serve h p log ms segs = (p', log', segs', OFinished) ->
  let used := N.of_nat (List.length (List.concat segs)) - N.of_nat (List.length (List.concat segs')) in
  N.of_nat (List.length (List.concat segs')) <= N.of_nat (List.length (List.concat segs)) /\
  byte_count p + used <= byte_count p' <= byte_count p + used + url_encoded_length ms.
Proof.
  cbv zeta. induction ms as [|m ms IH]; intros p log segs p' log' segs' E; cbn [serve] in E.
  - injection E as <- <- <-. cbn [url_encoded_length]. lia.
  - destruct (turn (calls segs) h (prepare m p) log segs) as [[[p1 log1] segs1] o1] eqn:T.
    destruct o1; try discriminate E.
    apply IH in E. clear IH. destruct E as (E1 & E2).
    destruct (turn_client _ _ _ _ _ _ _ _ _ T) as (rest & C & R). destruct (R eq_refl) as [-> _]. clear T R.
    assert (B : match m with MUrlEncoded _ _ => False | _ =>
                byte_count (prepare m p) = byte_count p /\
                vstate (parser_type (prepare m p)) (state_fn (prepare m p)) = true /\
                parser_type (prepare m p) <> UrlEncoded end \/ exists ps w, m = MUrlEncoded ps w).
    { destruct m as [q|r|cs ts|bd ps|ps w]; try (left; split; [reflexivity|split; [reflexivity|discriminate]]). right. eauto. }
    destruct B as [B|(ps & w & ->)].
    + assert (B' : byte_count (prepare m p) = byte_count p /\
                vstate (parser_type (prepare m p)) (state_fn (prepare m p)) = true /\
                parser_type (prepare m p) <> UrlEncoded) by (destruct m; trivial; contradiction).
      destruct B' as (B1 & B2 & B3).
      pose proof (client_count _ _ _ _ _ _ _ _ _ B2 B3 C) as Q. cbv beta iota in Q. rewrite B1 in Q.
      assert (url_encoded_length ms = url_encoded_length (m :: ms)) as <- by (destruct m; trivial; contradiction). pose proof (client_rest _ _ _ _ _ _ _ _ _ C) as LE. lia.
    + cbn [url_encoded_length]. cbn [prepare] in C.
      pose proof (client_count_url h _ (set_length (init_url_encoded p) (N.of_nat (List.length w))) log segs p1 log1
                   (List.concat segs1) OFinished eq_refl eq_refl eq_refl eq_refl C) as [_ Q].
      destruct (Q eq_refl) as (bf & sg & af & k & Q1 & Q2 & Q3 & Q4 & Q5 & _). clear Q.
      pose proof (client_url h _ (set_length (init_url_encoded p) (N.of_nat (List.length w))) log segs p1 log1
                   (List.concat segs1) OFinished eq_refl eq_refl eq_refl C) as [_ Q].
      destruct (Q eq_refl) as (Q7 & Q8). cbn [set_length with_length plength init_url_encoded byte_count] in *.
      rewrite Q8, skipn_length in *. change (byte_count (init_url_encoded p)) with (byte_count p) in *. lia.
Qed.
