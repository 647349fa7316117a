(* Proofs about the program that receives responses. *)

From Coq Require Import NArith List Bool Arith String Lia.
From Verif Require Import Bytes Http1Model Http1Spec Http1Wire Http1Reader Http1Cuts Http1Round Http1Round2 Http1Program
  Http1Understood Http1ProgramFacts UtilModel UtilSpec UtilFields UtilIter FormSpec FormFacts ClientSpec.
Import ListNotations.
Local Open Scope N_scope.
Local Open Scope list_scope.

(* ------------------------------------------------------------------ *)
(* What is kept                                                         *)
(* ------------------------------------------------------------------ *)

Lemma hear_reason u : forall g r i d,
  fold_left hear (map (FByte KStatus) u) (Client (g :: r) i d [] []) =
  Client (Reply (n_status g) (n_reason g ++ u) (n_fields g) (n_body g) (n_trailers g) :: r) i d [] [].
Proof.
  induction u as [|b u IH]; intros g r i d; cbn [map fold_left].
  - rewrite app_nil_r. now destruct g.
  - cbn [hear hears_head body_due replies on_newest this_name this_value]. rewrite IH.
    cbn [n_status n_reason n_fields n_body n_trailers]. now rewrite <- app_assoc.
Qed.

Lemma hear_data u : forall g r i d,
  fold_left hear (map (FByte KChunkData) u) (Client (g :: r) i d [] []) =
  Client (Reply (n_status g) (n_reason g) (n_fields g) (n_body g ++ u) (n_trailers g) :: r) i d [] [].
Proof.
  induction u as [|b u IH]; intros g r i d; cbn [map fold_left].
  - rewrite app_nil_r. now destruct g.
  - cbn [hear hears_head body_due replies on_newest this_name this_value]. rewrite IH.
    cbn [n_status n_reason n_fields n_body n_trailers]. now rewrite <- app_assoc.
Qed.

Lemma hear_names ns : forall l i d nm,
  fold_left hear (map (FByte KHeaderName) ns) (Client l i d nm []) = Client l i d (nm ++ ns) [].
Proof.
  induction ns as [|b ns IH]; intros l i d nm; cbn [map fold_left]; [now rewrite app_nil_r|].
  cbn [hear end_field this_value replies hears_head body_due this_name]. rewrite IH, <- app_assoc. reflexivity.
Qed.

Lemma hear_values vs : forall l i d nm vl,
  fold_left hear (map (FByte KHeaderValue) vs) (Client l i d nm vl) = Client l i d nm (vl ++ vs).
Proof.
  induction vs as [|b vs IH]; intros l i d nm vl; cbn [map fold_left]; [now rewrite app_nil_r|].
  cbn [hear replies hears_head body_due this_name this_value]. rewrite IH, <- app_assoc. reflexivity.
Qed.

Lemma hear_header f s g r i d : wf_header f -> end_field s = Client (g :: r) i d [] [] ->
  end_field (fold_left hear (seen_header f) s) = Client (put_field i (as_field f) g :: r) i d [] [].
Proof.
  intros (N1 & _ & _ & V & _) E. unfold seen_header. rewrite fold_left_app.
  destruct (map lower_case (h_name f)) as [|b ns] eqn:EN.
  { destruct (h_name f); [congruence|discriminate EN]. }
  cbn [map fold_left hear]. rewrite E. cbn [replies hears_head body_due this_name this_value app].
  rewrite hear_names, hear_values. cbn [app]. unfold as_field, full_value. rewrite EN.
  destruct (h_value f) as [|v vs]; [contradiction|].
  cbn [app end_field this_value this_name replies hears_head body_due on_newest]. reflexivity.
Qed.

Lemma put_fields i fs : forall g,
  fold_left (fun g x => put_field i x g) fs g =
  if i then Reply (n_status g) (n_reason g) (n_fields g ++ fs) (n_body g) (n_trailers g)
  else Reply (n_status g) (n_reason g) (n_fields g) (n_body g) (n_trailers g ++ fs).
Proof.
  induction fs as [|x fs IH]; intros g; cbn [fold_left].
  - rewrite !app_nil_r. destruct i; now destruct g.
  - rewrite IH. unfold put_field. destruct i; cbn [n_status n_reason n_fields n_body n_trailers]; now rewrite <- app_assoc.
Qed.

Lemma hear_headers fs : forall s g r i d, Forall wf_header fs -> end_field s = Client (g :: r) i d [] [] ->
  fold_left hear (seen_headers fs) s =
  Client (fold_left (fun g x => put_field i x g) (map as_field fs) g :: r) false i [] [].
Proof.
  unfold seen_headers. induction fs as [|f fs IH]; intros s g r i d W E.
  - cbn [flat_map app fold_left map hear]. now rewrite E.
  - inversion W as [|? ? W1 W2]; subst. cbn [flat_map map fold_left]. rewrite <- app_assoc, fold_left_app.
    apply (IH _ _ r i d W2). now apply hear_header.
Qed.

Definition status_of (res : response) : N * N * N :=
  (decimal (fst (r_version res)), decimal (snd (r_version res)), decimal (r_code res)).

Lemma hear_response res s : wf_response res ->
  fold_left hear (seen_response res) s =
  Client (Reply (status_of res) (r_reason res) (map as_field (r_headers res)) [] [] :: replies s) false true [] [].
Proof.
  intros (_ & _ & _ & _ & _ & _ & W). unfold seen_response. rewrite !fold_left_app.
  unfold seen_version. cbn [fold_left hear on_newest replies hears_head body_due this_name this_value n_status fst].
  rewrite hear_reason. cbn [n_status n_reason n_fields n_body n_trailers app fold_left hear].
  erewrite hear_headers; [|exact W|reflexivity].
  rewrite put_fields. reflexivity.
Qed.

Lemma hear_exts xs : forall s, fold_left hear (flat_map seen_ext xs) s = s.
Proof.
  assert (B : forall k l s, k = KChunkExtName \/ k = KChunkExtValue -> fold_left hear (map (FByte k) l) s = s).
  { intros k l. induction l as [|b l IH]; intros s [->| ->]; cbn [map fold_left hear]; auto. }
  induction xs as [|x xs IH]; intros s; [reflexivity|]. cbn [flat_map]. rewrite fold_left_app.
  unfold seen_ext at 2. rewrite !fold_left_app. rewrite B by auto.
  destruct (x_value x) as [[w v]|]; [rewrite B by auto|]; cbn [fold_left hear]; apply IH.
Qed.

Lemma hear_chunks cs : forall g r d,
  fold_left hear (flat_map seen_chunk cs) (Client (g :: r) false d [] []) =
  Client (Reply (n_status g) (n_reason g) (n_fields g) (n_body g ++ flat_map c_data cs) (n_trailers g) :: r) false d [] [].
Proof.
  induction cs as [|c cs IH]; intros g r d; cbn [flat_map].
  - rewrite app_nil_r. now destruct g.
  - rewrite fold_left_app. unfold seen_chunk at 2. rewrite !fold_left_app. cbn [fold_left hear].
    rewrite hear_exts. cbn [fold_left hear]. rewrite hear_data, IH.
    cbn [n_status n_reason n_fields n_body n_trailers]. now rewrite <- app_assoc.
Qed.

Lemma hear_body cs ts g r d : Forall wf_header ts ->
  fold_left hear (seen_chunked cs ts) (Client (g :: r) false d [] []) =
  Client (Reply (n_status g) (n_reason g) (n_fields g) (n_body g ++ flat_map c_data cs) (n_trailers g ++ map as_field ts) :: r)
         false false [] [].
Proof.
  intros W. unfold seen_chunked. rewrite !fold_left_app. rewrite hear_chunks. cbn [fold_left hear].
  erewrite hear_headers; [|exact W|reflexivity]. rewrite put_fields. cbn [hear replies hears_head this_name this_value].
  reflexivity.
Qed.

Definition seen_reply (x : answer) : list fevent :=
  seen_response (fst x) ++ match snd x with None => [] | Some (cs, ts) => seen_chunked cs ts end.

Lemma hear_reply x s : wf_answer x -> hears_head s = false ->
  fold_left hear (seen_reply x) s =
  Client (told x :: replies s) false (match snd x with None => true | Some _ => false end) [] [].
Proof.
  intros (W & B) I. unfold seen_reply. rewrite fold_left_app, (hear_response _ _ W).
  unfold told. destruct (snd x) as [[cs ts]|]; [|reflexivity].
  destruct B as (_ & B & _). rewrite hear_body by assumption. reflexivity.
Qed.

(* ------------------------------------------------------------------ *)
(* What comes next                                                      *)
(* ------------------------------------------------------------------ *)

(* Between two requests. *)
Definition resting (l : list fevent) : Prop :=
  let s := heard l in hears_head s = false /\
  match replies s with [] => True | g :: _ => body_due s && coded_chunked g = false end.

Lemma resting_head l : resting l -> receive_responses l = Some AHead.
Proof.
  intros [_ I]. unfold receive_responses. destruct (replies (heard l)) as [|g r]; [reflexivity|]. now rewrite I.
Qed.

Lemma heard_app l m : heard (l ++ m) = fold_left hear m (heard l).
Proof. apply fold_left_app. Qed.

Lemma coding_found x cs ts : wf_answer x -> snd x = Some (cs, ts) ->
  coded_chunked (Reply (status_of (fst x)) (r_reason (fst x)) (map as_field (r_headers (fst x))) [] []) = true.
Proof.
  intros (_ & W) E. rewrite E in W. destruct W as (_ & _ & v & items & o & L & F).
  unfold coded_chunked. cbn [n_fields]. rewrite L, (fields_all true 44 v _ comma_delimiter F).
  rewrite last_last. cbn [fst]. now destruct (list_eq_dec N.eq_dec (bs "chunked") (bs "chunked")).
Qed.

Lemma next_body l x cs ts : wf_answer x -> snd x = Some (cs, ts) -> resting l ->
  receive_responses (l ++ seen_response (fst x)) = Some AChunked.
Proof.
  intros W E [I _]. pose proof (coding_found x cs ts W E) as C. destruct W as (W & _).
  unfold receive_responses. rewrite heard_app, (hear_response _ _ W). cbn [replies body_due]. now rewrite C.
Qed.

Lemma resting_after l x : wf_answer x -> resting l -> resting (l ++ seen_reply x).
Proof.
  intros W [I _]. unfold resting. rewrite heard_app, (hear_reply x _ W I). cbn [hears_head replies body_due].
  split; [reflexivity|]. destruct W as (_ & W). unfold told.
  destruct (snd x) as [[cs ts]|]; [reflexivity|]. cbn [andb]. unfold coded_chunked. cbn [n_fields]. now rewrite W.
Qed.

Lemma client_boundaries : good_boundaries receive_responses.
Proof.
  intros l bd. unfold receive_responses. destruct (replies (heard l)) as [|g r]; [discriminate|].
  destruct (body_due _ && _); discriminate.
Qed.

(* ------------------------------------------------------------------ *)
(* The connection                                                       *)
(* ------------------------------------------------------------------ *)

Lemma read_response res tail : wf_response res ->
  read_head (render_response res ++ tail) = (seen_response res, Complete tail) /\
  hok (strip (render_response res ++ tail)) = true.
Proof.
  intros W.
  assert (K : hok (strip (render_response res ++ tail)) = true).
  { unfold render_response, render_version. rewrite <- !app_assoc. destruct W as (B & _).
    rewrite strip_blank by assumption.
    assert (X : forall r, hok (strip (bs "HTTP/" ++ r)) = true) by (now intros [|? ?]). apply X. }
  split; [|exact K].
  set (w := render_response res ++ tail) in *.
  assert (E : List.concat [w] = w) by apply app_nil_r.
  destruct (response_round yes new res tail [w] W E) as (p' & log & F & L).
  pose proof (head_understood yes new [w]) as U. rewrite E, F in U.
  specialize (U ltac:(discriminate) (or_introl K)). cbn [understood] in U.
  destruct (read_head w) as [x [y|a|e|]]; cbn [fst snd] in U.
  - destruct U as (_ & U1 & U2 & _). congruence.
  - destruct U as [U _]. discriminate U.
  - destruct U as [(e' & U & _) _]. discriminate U.
  - destruct U as [[x0 U] _]. discriminate U.
Qed.

Lemma read_body cs ts tail : Forall wf_chunk cs -> Forall wf_header ts ->
  read_chunked (render_chunked cs ts ++ tail) = (seen_chunked cs ts, Complete tail).
Proof.
  intros W1 W2.
  set (w := render_chunked cs ts ++ tail) in *.
  assert (E : List.concat [w] = w) by apply app_nil_r.
  destruct (chunked_round yes new cs ts tail [w] W1 W2 E) as (p' & log & F & L).
  pose proof (chunked_understood yes new [w]) as U. rewrite E, F in U.
  specialize (U ltac:(discriminate)). cbn [understood] in U.
  destruct (read_chunked w) as [x [y|a|e|]]; cbn [fst snd] in U.
  - destruct U as (_ & U1 & U2 & _). congruence.
  - destruct U as [U _]. discriminate U.
  - destruct U as [(e' & U & _) _]. discriminate U.
  - destruct U as [[x0 U] _]. discriminate U.
Qed.

Lemma read_reply clen xs tail : forall l, Forall wf_answer xs -> resting l ->
  read_stream (uses xs) clen receive_responses l (flat_map as_sent xs ++ tail) =
    (l ++ flat_map seen_reply xs, Complete tail) /\
  plain_heads (uses xs) clen receive_responses l (flat_map as_sent xs ++ tail).
Proof.
  induction xs as [|x xs IH]; intros l W I.
  - cbn [uses flat_map app read_stream plain_heads]. rewrite app_nil_r. now split.
  - inversion W as [|? ? W1 W2]; subst. pose proof (resting_after l x W1 I) as I2.
    pose proof (resting_head l I) as N1. destruct (IH _ W2 I2) as [R P].
    set (more := flat_map as_sent xs ++ tail) in *.
    assert (T : flat_map as_sent (x :: xs) ++ tail =
                render_response (fst x) ++ match snd x with None => [] | Some (cs, ts) => render_chunked cs ts end ++ more).
    { cbn [flat_map]. unfold as_sent at 1, more. now rewrite <- !app_assoc. }
    rewrite T. cbn [flat_map]. rewrite (app_assoc l). clear T.
    pose proof (fun cs ts => next_body l x cs ts W1) as N2. destruct W1 as (V & B). cbn [uses].
    destruct (snd x) as [[cs ts]|] eqn:E.
    + destruct (read_response (fst x) (render_chunked cs ts ++ more) V) as [R1 K].
      specialize (N2 cs ts eq_refl I). destruct B as (B1 & B2 & _).
      pose proof (read_body cs ts more B1 B2) as R2.
      assert (S : (l ++ seen_response (fst x)) ++ seen_chunked cs ts = l ++ seen_reply x).
      { unfold seen_reply. now rewrite E, app_assoc. }
      cbn [Nat.add read_stream plain_heads]. rewrite N1. cbv iota beta. rewrite R1, N2. cbv iota beta. rewrite R2, S.
      split; [exact R|]. split; [intros _; exact K|]. split; [discriminate|exact P].
    + destruct (read_response (fst x) more V) as [R1 K]. cbn [app].
      assert (S : l ++ seen_response (fst x) = l ++ seen_reply x).
      { unfold seen_reply. now rewrite E, app_nil_r. }
      cbn [Nat.add read_stream plain_heads]. rewrite N1. cbv iota beta. rewrite R1, S.
      split; [exact R|]. split; [intros _; exact K|exact P].
Qed.

Lemma received_reply xs : forall s, Forall wf_answer xs -> hears_head s = false ->
  replies (fold_left hear (flat_map seen_reply xs) s) = rev (map told xs) ++ replies s.
Proof.
  induction xs as [|x xs IH]; intros s W I; [reflexivity|]. inversion W as [|? ? W1 W2]; subst.
  cbn [flat_map map rev]. rewrite fold_left_app, (hear_reply x s W1 I), IH by (assumption || reflexivity).
  cbn [replies]. now rewrite <- app_assoc.
Qed.

Lemma responses_received h clen p xs tail segs :
  (forall l, h_clen h l = clen (flat l)) -> Forall wf_answer xs -> segs <> [] ->
  List.concat segs = flat_map as_sent xs ++ tail ->
  exists p' log segs', work (uses xs) h receive_responses p [] segs = (p', log, segs', OFinished) /\
    List.concat segs' = tail /\ received (flat log) = map told xs.
Proof.
  intros Hc W NE E.
  assert (I : resting []) by now split.
  destruct (read_reply clen xs tail [] W I) as [R P]. rewrite <- E in R, P.
  pose proof (program_stream h clen receive_responses (uses xs) p segs Hc client_boundaries NE P) as G.
  rewrite R in G. destruct (work (uses xs) h receive_responses p [] segs) as [[[p' log] segs'] o].
  cbn [goes fst snd app] in G. destruct G as (-> & G1 & G2).
  exists p', log, segs'. split; [reflexivity|]. split; [exact G2|].
  rewrite G1. unfold received, heard. rewrite received_reply by (assumption || reflexivity).
  cbn [replies]. now rewrite app_nil_r, rev_involutive.
Qed.
