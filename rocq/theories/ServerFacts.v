(* Proofs about the program that serves requests. *)

From Coq Require Import NArith List Bool Arith String Lia.
From Verif Require Import Bytes Http1Model Http1Spec Http1Wire Http1Reader Http1Cuts Http1Round Http1Round2 Http1Program
  Http1Understood Http1ProgramFacts UtilModel UtilSpec UtilFields UtilIter FormSpec FormFacts ServerSpec.
Import ListNotations.
Local Open Scope N_scope.
Local Open Scope list_scope.

(* ------------------------------------------------------------------ *)
(* What is kept                                                         *)
(* ------------------------------------------------------------------ *)

Lemma take_method m : forall g r,
  fold_left take (map (FByte KMethod) m) (Server (g :: r) true false [] []) =
  Server (Got (g_method g ++ m) (g_url g) (g_fields g) (g_body g) (g_trailers g) :: r) true false [] [].
Proof.
  induction m as [|b m IH]; intros g r; cbn [map fold_left].
  - rewrite app_nil_r. now destruct g.
  - cbn [take in_head reqs on_last cur_name cur_value]. rewrite IH.
    cbn [g_method g_url g_fields g_body g_trailers]. now rewrite <- app_assoc.
Qed.

Lemma take_url u : forall g r i d,
  fold_left take (map (FByte KUrl) u) (Server (g :: r) i d [] []) =
  Server (Got (g_method g) (g_url g ++ u) (g_fields g) (g_body g) (g_trailers g) :: r) i d [] [].
Proof.
  induction u as [|b u IH]; intros g r i d; cbn [map fold_left].
  - rewrite app_nil_r. now destruct g.
  - cbn [take in_head due reqs on_last cur_name cur_value]. rewrite IH.
    cbn [g_method g_url g_fields g_body g_trailers]. now rewrite <- app_assoc.
Qed.

Lemma take_data u : forall g r i d,
  fold_left take (map (FByte KChunkData) u) (Server (g :: r) i d [] []) =
  Server (Got (g_method g) (g_url g) (g_fields g) (g_body g ++ u) (g_trailers g) :: r) i d [] [].
Proof.
  induction u as [|b u IH]; intros g r i d; cbn [map fold_left].
  - rewrite app_nil_r. now destruct g.
  - cbn [take in_head due reqs on_last cur_name cur_value]. rewrite IH.
    cbn [g_method g_url g_fields g_body g_trailers]. now rewrite <- app_assoc.
Qed.

Lemma take_names ns : forall l i d nm,
  fold_left take (map (FByte KHeaderName) ns) (Server l i d nm []) = Server l i d (nm ++ ns) [].
Proof.
  induction ns as [|b ns IH]; intros l i d nm; cbn [map fold_left]; [now rewrite app_nil_r|].
  cbn [take finish cur_value reqs in_head due cur_name]. rewrite IH, <- app_assoc. reflexivity.
Qed.

Lemma take_values vs : forall l i d nm vl,
  fold_left take (map (FByte KHeaderValue) vs) (Server l i d nm vl) = Server l i d nm (vl ++ vs).
Proof.
  induction vs as [|b vs IH]; intros l i d nm vl; cbn [map fold_left]; [now rewrite app_nil_r|].
  cbn [take reqs in_head due cur_name cur_value]. rewrite IH, <- app_assoc. reflexivity.
Qed.

Lemma take_header f s g r i d : wf_header f -> finish s = Server (g :: r) i d [] [] ->
  finish (fold_left take (seen_header f) s) = Server (add_field i (field_of f) g :: r) i d [] [].
Proof.
  intros (N1 & _ & _ & V & _) E. unfold seen_header. rewrite fold_left_app.
  destruct (map lower_case (h_name f)) as [|b ns] eqn:EN.
  { destruct (h_name f); [congruence|discriminate EN]. }
  cbn [map fold_left take]. rewrite E. cbn [reqs in_head due cur_name cur_value app].
  rewrite take_names, take_values. cbn [app]. unfold field_of, full_value. rewrite EN.
  destruct (h_value f) as [|v vs]; [contradiction|].
  cbn [app finish cur_value cur_name reqs in_head due on_last]. reflexivity.
Qed.

Lemma add_fields i fs : forall g,
  fold_left (fun g x => add_field i x g) fs g =
  if i then Got (g_method g) (g_url g) (g_fields g ++ fs) (g_body g) (g_trailers g)
  else Got (g_method g) (g_url g) (g_fields g) (g_body g) (g_trailers g ++ fs).
Proof.
  induction fs as [|x fs IH]; intros g; cbn [fold_left].
  - rewrite !app_nil_r. destruct i; now destruct g.
  - rewrite IH. unfold add_field. destruct i; cbn [g_method g_url g_fields g_body g_trailers]; now rewrite <- app_assoc.
Qed.

Lemma take_headers fs : forall s g r i d, Forall wf_header fs -> finish s = Server (g :: r) i d [] [] ->
  fold_left take (seen_headers fs) s =
  Server (fold_left (fun g x => add_field i x g) (map field_of fs) g :: r) false i [] [].
Proof.
  unfold seen_headers. induction fs as [|f fs IH]; intros s g r i d W E.
  - cbn [flat_map app fold_left map take]. now rewrite E.
  - inversion W as [|? ? W1 W2]; subst. cbn [flat_map map fold_left]. rewrite <- app_assoc, fold_left_app.
    apply (IH _ _ r i d W2). now apply take_header.
Qed.

Lemma take_request req s : wf_request req -> in_head s = false ->
  fold_left take (seen_request req) s =
  Server (Got (q_method req) (q_url req) (map field_of (q_headers req)) [] [] :: reqs s) false true [] [].
Proof.
  intros (_ & M & _ & _ & _ & _ & W) I. unfold seen_request. rewrite !fold_left_app.
  destruct (q_method req) as [|b m]; [congruence|]. cbn [map fold_left take]. rewrite I.
  rewrite take_method, take_url. cbn [g_method g_url g_fields g_body g_trailers app fold_left].
  unfold seen_version. destruct (q_version req) as [v1 v2]. cbn [take].
  erewrite take_headers; [|exact W|reflexivity].
  rewrite add_fields. reflexivity.
Qed.

Lemma take_exts xs : forall s, fold_left take (flat_map seen_ext xs) s = s.
Proof.
  assert (B : forall k l s, k = KChunkExtName \/ k = KChunkExtValue -> fold_left take (map (FByte k) l) s = s).
  { intros k l. induction l as [|b l IH]; intros s [->| ->]; cbn [map fold_left take]; auto. }
  induction xs as [|x xs IH]; intros s; [reflexivity|]. cbn [flat_map]. rewrite fold_left_app.
  unfold seen_ext at 2. rewrite !fold_left_app. rewrite B by auto.
  destruct (x_value x) as [[w v]|]; [rewrite B by auto|]; cbn [fold_left take]; apply IH.
Qed.

Lemma take_chunks cs : forall g r d,
  fold_left take (flat_map seen_chunk cs) (Server (g :: r) false d [] []) =
  Server (Got (g_method g) (g_url g) (g_fields g) (g_body g ++ flat_map c_data cs) (g_trailers g) :: r) false d [] [].
Proof.
  induction cs as [|c cs IH]; intros g r d; cbn [flat_map].
  - rewrite app_nil_r. now destruct g.
  - rewrite fold_left_app. unfold seen_chunk at 2. rewrite !fold_left_app. cbn [fold_left take].
    rewrite take_exts. cbn [fold_left take]. rewrite take_data, IH.
    cbn [g_method g_url g_fields g_body g_trailers]. now rewrite <- app_assoc.
Qed.

Lemma take_body cs ts g r d : Forall wf_header ts ->
  fold_left take (seen_chunked cs ts) (Server (g :: r) false d [] []) =
  Server (Got (g_method g) (g_url g) (g_fields g) (g_body g ++ flat_map c_data cs) (g_trailers g ++ map field_of ts) :: r)
         false false [] [].
Proof.
  intros W. unfold seen_chunked. rewrite !fold_left_app. rewrite take_chunks. cbn [fold_left take].
  erewrite take_headers; [|exact W|reflexivity]. rewrite add_fields. cbn [take reqs in_head cur_name cur_value].
  reflexivity.
Qed.

Definition seen_sent (x : sent) : list fevent :=
  seen_request (fst x) ++ match snd x with None => [] | Some (cs, ts) => seen_chunked cs ts end.

Lemma take_sent x s : wf_sent x -> in_head s = false ->
  fold_left take (seen_sent x) s =
  Server (meant x :: reqs s) false (match snd x with None => true | Some _ => false end) [] [].
Proof.
  intros (W & _ & B) I. unfold seen_sent. rewrite fold_left_app, (take_request _ _ W I).
  unfold meant. destruct (snd x) as [[cs ts]|]; [|reflexivity].
  destruct B as (_ & B & _). rewrite take_body by assumption. reflexivity.
Qed.

(* ------------------------------------------------------------------ *)
(* What comes next                                                      *)
(* ------------------------------------------------------------------ *)

(* Between two requests. *)
Definition idle (l : list fevent) : Prop :=
  let s := taken l in in_head s = false /\
  match reqs s with [] => True | g :: _ => due s && chunked_coding g = false end.

Lemma idle_head l : idle l -> serve_requests l = Some AHead.
Proof.
  intros [_ I]. unfold serve_requests. destruct (reqs (taken l)) as [|g r]; [reflexivity|]. now rewrite I.
Qed.

Lemma taken_app l m : taken (l ++ m) = fold_left take m (taken l).
Proof. apply fold_left_app. Qed.

Lemma coding_found x cs ts : wf_sent x -> snd x = Some (cs, ts) ->
  chunked_coding (Got (q_method (fst x)) (q_url (fst x)) (map field_of (q_headers (fst x))) [] []) = true.
Proof.
  intros (_ & _ & W) E. rewrite E in W. destruct W as (_ & _ & v & items & o & L & F).
  unfold chunked_coding. cbn [g_fields]. rewrite L, (fields_all true 44 v _ comma_delimiter F).
  rewrite last_last. cbn [fst]. now destruct (list_eq_dec N.eq_dec (bs "chunked") (bs "chunked")).
Qed.

Lemma next_body l x cs ts : wf_sent x -> snd x = Some (cs, ts) -> idle l ->
  serve_requests (l ++ seen_request (fst x)) = Some AChunked.
Proof.
  intros W E [I _]. pose proof (coding_found x cs ts W E) as C. destruct W as (W & _).
  unfold serve_requests. rewrite taken_app, (take_request _ _ W I). cbn [reqs due]. now rewrite C.
Qed.

Lemma idle_after l x : wf_sent x -> idle l -> idle (l ++ seen_sent x).
Proof.
  intros W [I _]. unfold idle. rewrite taken_app, (take_sent x _ W I). cbn [in_head reqs due].
  split; [reflexivity|]. destruct W as (_ & _ & W). unfold meant.
  destruct (snd x) as [[cs ts]|]; [reflexivity|]. cbn [andb]. unfold chunked_coding. cbn [g_fields]. now rewrite W.
Qed.

Lemma server_boundaries : good_boundaries serve_requests.
Proof.
  intros l bd. unfold serve_requests. destruct (reqs (taken l)) as [|g r]; [discriminate|].
  destruct (due _ && _); discriminate.
Qed.

(* ------------------------------------------------------------------ *)
(* The connection                                                       *)
(* ------------------------------------------------------------------ *)

Lemma read_body cs ts tail : Forall wf_chunk cs -> Forall wf_header ts ->
  read_chunked (render_chunked cs ts ++ tail) = (seen_chunked cs ts, Complete tail).
Proof.
  intros W1 W2.
  set (w := render_chunked cs ts ++ tail) in *.
  assert (E : List.concat [w] = w) by apply app_nil_r.
  destruct (chunked_round yes new cs ts tail [w] W1 W2 E) as (p' & log & F & L).
  pose proof (chunked_understood yes new [w]) as U. rewrite E, F in U.
  specialize (U ltac:(discriminate)). cbn [understood] in U.
  destruct (read_chunked w) as [x [y|a|e|]]; cbn [fst snd] in U.
  - destruct U as (_ & U1 & U2 & _). congruence.
  - destruct U as [U _]. discriminate U.
  - destruct U as [(e' & U & _) _]. discriminate U.
  - destruct U as [[x0 U] _]. discriminate U.
Qed.

Lemma read_sent clen xs tail : forall l, Forall wf_sent xs -> idle l ->
  read_stream (messages xs) clen serve_requests l (flat_map on_wire xs ++ tail) =
    (l ++ flat_map seen_sent xs, Complete tail) /\
  plain_heads (messages xs) clen serve_requests l (flat_map on_wire xs ++ tail).
Proof.
  induction xs as [|x xs IH]; intros l W I.
  - cbn [messages flat_map app read_stream plain_heads]. rewrite app_nil_r. now split.
  - inversion W as [|? ? W1 W2]; subst. pose proof (idle_after l x W1 I) as I2.
    pose proof (idle_head l I) as N1. destruct (IH _ W2 I2) as [R P].
    set (more := flat_map on_wire xs ++ tail) in *.
    assert (T : flat_map on_wire (x :: xs) ++ tail =
                render_request (fst x) ++ match snd x with None => [] | Some (cs, ts) => render_chunked cs ts end ++ more).
    { cbn [flat_map]. unfold on_wire at 1, more. now rewrite <- !app_assoc. }
    rewrite T. cbn [flat_map]. rewrite (app_assoc l). clear T.
    pose proof (fun cs ts => next_body l x cs ts W1) as N2. destruct W1 as (V & H & B). cbn [messages].
    destruct (snd x) as [[cs ts]|] eqn:E.
    + destruct (read_request (fst x) (render_chunked cs ts ++ more) V H) as [R1 K].
      specialize (N2 cs ts eq_refl I). destruct B as (B1 & B2 & _).
      pose proof (read_body cs ts more B1 B2) as R2.
      assert (S : (l ++ seen_request (fst x)) ++ seen_chunked cs ts = l ++ seen_sent x).
      { unfold seen_sent. now rewrite E, app_assoc. }
      cbn [Nat.add read_stream plain_heads]. rewrite N1. cbv iota beta. rewrite R1, N2. cbv iota beta. rewrite R2, S.
      split; [exact R|]. split; [intros _; exact K|]. split; [discriminate|exact P].
    + destruct (read_request (fst x) more V H) as [R1 K]. cbn [app].
      assert (S : l ++ seen_request (fst x) = l ++ seen_sent x).
      { unfold seen_sent. now rewrite E, app_nil_r. }
      cbn [Nat.add read_stream plain_heads]. rewrite N1. cbv iota beta. rewrite R1, S.
      split; [exact R|]. split; [intros _; exact K|exact P].
Qed.

Lemma served_sent xs : forall s, Forall wf_sent xs -> in_head s = false ->
  reqs (fold_left take (flat_map seen_sent xs) s) = rev (map meant xs) ++ reqs s.
Proof.
  induction xs as [|x xs IH]; intros s W I; [reflexivity|]. inversion W as [|? ? W1 W2]; subst.
  cbn [flat_map map rev]. rewrite fold_left_app, (take_sent x s W1 I), IH by (assumption || reflexivity).
  cbn [reqs]. now rewrite <- app_assoc.
Qed.

Lemma requests_served h clen p xs tail segs :
  (forall l, h_clen h l = clen (flat l)) -> Forall wf_sent xs -> segs <> [] ->
  List.concat segs = flat_map on_wire xs ++ tail ->
  exists p' log segs', work (messages xs) h serve_requests p [] segs = (p', log, segs', OFinished) /\
    List.concat segs' = tail /\ served (flat log) = map meant xs.
Proof.
  intros Hc W NE E.
  assert (I : idle []) by now split.
  destruct (read_sent clen xs tail [] W I) as [R P]. rewrite <- E in R, P.
  pose proof (program_stream h clen serve_requests (messages xs) p segs Hc server_boundaries NE P) as G.
  rewrite R in G. destruct (work (messages xs) h serve_requests p [] segs) as [[[p' log] segs'] o].
  cbn [goes fst snd app] in G. destruct G as (-> & G1 & G2).
  exists p', log, segs'. split; [reflexivity|]. split; [exact G2|].
  rewrite G1. unfold served, taken. rewrite served_sent by (assumption || reflexivity).
  cbn [reqs]. now rewrite app_nil_r, rev_involutive.
Qed.
