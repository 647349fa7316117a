(* The body of a request is not found if its last coding ends in a capital letter. *)

From Coq Require Import NArith List Bool Arith String Lia.
From Verif Require Import Bytes Http1Model Http1Spec Http1Wire Http1Reader Http1Cuts Http1Round Http1Round2 Http1Program
  Http1Understood Http1ProgramFacts UtilModel UtilSpec UtilFields UtilIter UtilAhead UtilLost FormSpec FormFacts
  ServerSpec ServerFacts.
Import ListNotations.
Local Open Scope N_scope.
Local Open Scope list_scope.

Lemma capital_coding h clen p req t items w n w' tail segs :
  (forall l, h_clen h l = clen (flat l)) -> wf_request req -> hd 0 (q_method req) <> 72 ->
  lookup (bs "transfer-encoding") (map field_of (q_headers req)) = Some (t ++ w ++ n ++ w') ->
  Ahead true 44 t items -> fst (last items ([], None)) <> bs "chunked" ->
  Forall ws w -> plain_name 44 n -> n <> [] -> upper (last n 0) -> Forall ws w' ->
  segs <> [] -> List.concat segs = render_request req ++ tail ->
  exists p' log segs', work 1 h serve_requests p [] segs = (p', log, segs', OFinished) /\
    List.concat segs' = tail /\ served (flat log) = [meant (req, None)] /\
    serve_requests (flat log) = Some AHead.
Proof.
  intros Hc W H L A NC W1 N1 N2 U W2 NE E.
  destruct (read_request req tail W H) as [R K]. rewrite <- E in R, K.
  assert (RS : read_stream 1 clen serve_requests [] (List.concat segs) = (seen_request req, Complete tail)).
  { cbn [read_stream]. change (serve_requests []) with (Some AHead). cbv iota beta. rewrite R. reflexivity. }
  assert (PH : plain_heads 1 clen serve_requests [] (List.concat segs)).
  { cbn [plain_heads]. change (serve_requests []) with (Some AHead). cbv iota beta. split; [intros _; exact K|].
    rewrite R. exact I. }
  pose proof (program_stream h clen serve_requests 1 p segs Hc server_boundaries NE PH) as G.
  rewrite RS in G. destruct (work 1 h serve_requests p [] segs) as [[[p' log] segs'] o].
  cbn [goes fst snd] in G. destruct G as (-> & G1 & G2).
  exists p', log, segs'. split; [reflexivity|]. split; [exact G2|]. rewrite G1.
  assert (T : taken (seen_request req) = Server [meant (req, None)] false true [] []).
  { unfold taken. now rewrite (take_request _ _ W). }
  split; [unfold served; now rewrite T|].
  unfold serve_requests. rewrite T. cbn [reqs due andb]. unfold chunked_coding, meant. cbn [g_fields fst].
  rewrite L, (incomplete_last true 44 t items w n w' comma_delimiter A W1 N1 N2 (or_intror (conj eq_refl U)) W2).
  match goal with |- context [list_eq_dec ?e ?a ?b] => destruct (list_eq_dec e a b) as [Q|_] end; [|reflexivity].
  now destruct (NC Q).
Qed.
