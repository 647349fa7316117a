(* Where errors are noticed. *)

From Coq Require Import NArith List Bool Arith String Lia.
From Verif Require Import Bytes ByteStream Http1Model Http1Base Http1Wp Http1Term Http1Spec Http1Sem
  Http1Sim Http1Step Http1Misc Http1Run Http1Client Http1Api Http1Url Http1Count Http1Protocol Http1Data Http1Wire
  Http1Round Http1Round2 Http1Accept Http1Parse Http1Parse2 Http1Parse4 Http1Reader Http1Reads Http1Reads2 Http1Reads3
  Http1Understood.
Import ListNotations.
Local Open Scope N_scope.

(* ------------------------------------------------------------------ *)
(* The automaton                                                        *)
(* ------------------------------------------------------------------ *)

Lemma nrm_st t a : a_st (nrm t a) = a_st a.
Proof. now destruct t, a. Qed.

Lemma abyte_alive t bd a b ev a' : abyte t bd a b = AGo ev a' -> a_st a' <> StDead.
Proof.
  unfold abyte. destruct (abyte_raw bd a b) as [ev0 a0|ev0 e|] eqn:E; try discriminate.
  intros [= <- <-]. rewrite nrm_st. revert E. destruct a as [s lo up len].
  destruct s; unfold_a; intros X; unfold a_boundary, a_boundary_cr, a_by_byte in X;
    repeat (match type of X with context [match ?x with _ => _ end] =>
              lazymatch x with context [match _ with _ => _ end] => fail | _ => destruct x end end;
            cbn [with_ev] in X);
    try discriminate X; injection X as _ <-; discriminate.
Qed.

Lemma aclose_alive t clen n : forall l a l1 a1, a_st a <> StDead -> aclose n t clen l a = (l1, a1) -> a_st a1 <> StDead.
Proof.
  induction n as [|n IH]; intros l a l1 a1 D E; cbn [aclose] in E.
  - now injection E as <- <-.
  - destruct (aeps t clen l a) as [[ev a2]|] eqn:P; [|now injection E as <- <-].
    apply IH in E; [exact E|]. clear E. destruct a as [s lo up len].
    destruct s; try discriminate P; cbn [aeps a_st] in P;
      repeat match type of P with (match ?x with _ => _ end) = _ => destruct x end;
      injection P as <- <-; rewrite ?nrm_st; cbn [a_st st]; try discriminate;
      repeat match goal with |- context [match ?x with _ => _ end] => destruct x end; discriminate || exact D.
Qed.

Lemma aeps_none_needs t clen l a : aeps t clen l a = None ->
  needs_byte (a_st a) = true \/ a_st a = StFinished \/ a_st a = StDead.
Proof. destruct a as [s lo up len]. destruct s; intros H; try discriminate H; auto. Qed.

Section Split.
  Variables (t : ptype) (bd : option (list byte)) (clen : list fevent -> option N).

  (* The automaton fails at the first byte it cannot read. *)
  Lemma afail_split : forall s a l L e R, a_st a <> StDead -> aexec t bd clen a l s = AFail L e R ->
    exists x b l1 a1, s = x ++ b :: R /\ aexec t bd clen a l x = ADone l1 a1 [] /\ a_st a1 <> StFinished /\
      aexec t bd clen a l (x ++ [b]) = AFail L e [].
  Proof.
    induction s as [|b s IH]; intros a l L e R D E;
      destruct (aclose 3 t clen l a) as [l0 a0] eqn:C;
      pose proof (aclose_alive _ _ _ _ _ _ _ D C) as D0;
      pose proof (aclose_idem _ _ _ _ _ _ C) as N0;
      assert (X : forall u, aexec t bd clen a l u = aexec t bd clen a0 l0 u)
        by (intros u; apply aexec_close; rewrite (aclose_none _ _ _ _ _ N0); exact C);
      rewrite X in E; destruct (aeps_none_needs _ _ _ _ N0) as [N|[N|N]]; try contradiction.
    - now rewrite aexec_nil in E.
    - rewrite (aexec_finished clen) in E by exact N. discriminate E.
    - rewrite aexec_byte in E by exact N. destruct (abyte t bd a0 b) as [ev a1|ev e1|] eqn:B; [| |discriminate E].
      + destruct (IH _ _ _ _ _ (abyte_alive _ _ _ _ _ _ B) E) as (x & c & l1 & a2 & -> & Q1 & Q2 & Q3).
        exists (b :: x), c, l1, a2. cbn [app]. rewrite !X, !aexec_byte, B by exact N. auto.
      + injection E as <- <- <-. exists [], b, l0, a0. cbn [app]. rewrite !X, aexec_nil, aexec_byte, B by exact N.
        repeat split; auto. intros F. rewrite F in N. discriminate N.
    - rewrite (aexec_finished clen) in E by exact N. discriminate E.
  Qed.
End Split.

Lemma rsem_split clen p s L e R : state_fn p <> StDead -> rsem clen p [] s = AFail L e R ->
  exists x b l1 a1, s = x ++ b :: R /\ rsem clen p [] x = ADone l1 a1 [] /\ a_st a1 <> StFinished /\
    rsem clen p [] (x ++ [b]) = AFail L e [].
Proof.
  intros D E. rewrite <- alpha_st in D. unfold rsem in *. destruct (parser_type p) eqn:T.
  1-3: unfold psem in *; exact (afail_split _ _ _ _ _ _ _ _ _ D E).
  unfold usem in *. set (n := N.to_nat (plength p)) in *.
  destruct (psem clen p [] (firstn n s)) as [l1 a1 r1|l1 e1 r1|l1] eqn:P; [| |discriminate E].
  { exfalso. destruct (a_st a1), (n <=? List.length s)%nat; discriminate E. }
  injection E as -> -> <-. unfold psem in P.
  destruct (afail_split _ _ _ _ _ _ _ _ _ D P) as (x & b & l2 & a2 & Q1 & Q2 & Q3 & Q4).
  assert (Lx : (S (List.length x) <= n)%nat).
  { pose proof (firstn_le_length n s) as X. apply (f_equal (@List.length _)) in Q1.
    rewrite app_length in Q1. cbn [List.length] in Q1. pose proof (firstn_length n s). lia. }
  exists x, b, l2, a2. repeat split; auto.
  - change (s = x ++ (b :: r1) ++ skipn n s). rewrite app_assoc, <- Q1. symmetry. apply firstn_skipn.
  - rewrite firstn_all2 by lia. unfold psem. rewrite Q2.
    destruct (Nat.leb_spec n (List.length x)); [lia|]. destruct (a_st a2); congruence.
  - rewrite firstn_all2 by (rewrite app_length; cbn [List.length]; lia). unfold psem. rewrite Q4.
    rewrite skipn_all2 by (rewrite app_length; cbn [List.length]; lia). reflexivity.
Qed.

(* ------------------------------------------------------------------ *)
(* Clients                                                              *)
(* ------------------------------------------------------------------ *)

Lemma resume_count h p log s p' log' r n :
  vstate (parser_type p) (state_fn p) = true -> state p = state_fn p ->
  resume h p log s = (p', log', r) -> r = ROk (SEos n) \/ r = ROk (SCallback n) ->
  state_fn p' = StFinished \/ byte_count p' = byte_count p + N.of_nat n.
Proof.
  intros V S E R. pose proof (resume_facts_all _ _ _ _ _ _ _ V E) as RF.
  assert (T : parser_type p = UrlEncoded \/ parser_type p <> UrlEncoded) by (destruct (parser_type p); auto; right; discriminate).
  destruct T as [T|T].
  - rewrite T in V. pose proof (resume_count_url h p log s p' log' r V S T E) as C.
    pose proof (rf_state _ _ _ _ _ _ RF S) as S'.
    destruct R as [-> | ->]; [now right|].
    rewrite <- S' by discriminate. destruct (state p'); auto; right; rewrite C; lia.
  - pose proof (rf_count _ _ _ _ _ _ RF T) as C. destruct R as [-> | ->]; now right.
Qed.

Lemma rsem_finished clen p l s : state_fn p = StFinished -> exists l' a r, rsem clen p l s = ADone l' a r.
Proof.
  intros F. unfold rsem, usem, psem. rewrite <- alpha_st in F.
  destruct (parser_type p); rewrite (aexec_finished clen) by exact F; eauto. rewrite F. eauto.
Qed.

Lemma client_place h clen (Hclen : forall l, h_clen h l = clen (flat l)) fuel :
  forall p log segs p' log' rest e,
  rinv2 p (hd [] segs) (List.concat (tl segs)) ->
  (settled p \/ segs <> []) ->
  (state_fn p = StDetect1 -> hd [] segs <> []) -> state p = state_fn p ->
  client fuel h p log segs = (p', log', rest, OError e) ->
  exists L e' R, rsem clen p (flat log) (List.concat segs) = AFail L e' R /\ same_kind e e' /\
    counted e (byte_count p + N.of_nat (List.length (List.concat segs))) p' R.
Proof.
  induction fuel as [|fuel IH]; intros p log segs p' log' rest e I Se N St E.
  { destruct segs; discriminate E. }
  destruct segs as [|seg more]; [discriminate E|].
  cbn [client] in E. destruct (resume h p log seg) as [[p1 log1] r] eqn:R.
  cbn [List.concat hd tl] in *.
  destruct (resume_sim h clen Hclen _ _ _ _ _ _ _ I N R) as (S & T & B & St' & Pr).
  destruct r as [[n|n|n]|e1|f|]; try discriminate E.
  - destruct S as (S1 & S2 & S3 & S4).
    destruct (IH p1 log1 (skipn n seg :: more) _ _ _ _ (rinv_rinv2 _ _ _ S3) (or_intror (@not_eq_sym _ _ _ (@nil_cons _ _ _)))
                 (fun X => match S4 X with end) (St' St ltac:(discriminate)) E) as (L & e' & R' & Q1 & Q2 & Q3).
    cbn [List.concat] in *. exists L, e', R'. rewrite S2. split; [exact Q1|]. split; [exact Q2|].
    destruct (resume_count _ _ _ _ _ _ _ n (ri2_state _ _ _ I) St R (or_intror eq_refl)) as [C|C].
    { destruct (rsem_finished clen p1 (flat log1) (skipn n seg ++ List.concat more) C) as (? & ? & ? & Z). congruence. }
    replace (byte_count p + N.of_nat (List.length (seg ++ List.concat more)))
      with (byte_count p1 + N.of_nat (List.length (skipn n seg ++ List.concat more))); [exact Q3|].
    rewrite C, !app_length, skipn_length. lia.
  - destruct S as (S1 & S2 & S3 & S4 & S5 & S6). subst n.
    destruct (IH p1 log1 more _ _ _ _ (rinv_rinv2 _ _ _ (eq_ind _ _ S3 _ (concat_hd more))) (or_introl (conj S5 S6))
                 (fun X => match S4 X with end) (St' St ltac:(discriminate)) E) as (L & e' & R' & Q1 & Q2 & Q3).
    exists L, e', R'. rewrite S2. split; [exact Q1|]. split; [exact Q2|].
    destruct (resume_count _ _ _ _ _ _ _ (List.length seg) (ri2_state _ _ _ I) St R (or_introl eq_refl)) as [C|C].
    { rewrite C in S5. discriminate S5. }
    replace (byte_count p + N.of_nat (List.length (seg ++ List.concat more)))
      with (byte_count p1 + N.of_nat (List.length (List.concat more))); [exact Q3|].
    rewrite C, !app_length. lia.
  - injection E as <- <- <- <-. destruct S as (L & e' & R' & Q1 & Q2 & Q3 & Q4). exists L, e', R'. auto.
Qed.

(* ------------------------------------------------------------------ *)
(* Conclusions                                                          *)
(* ------------------------------------------------------------------ *)

Lemma feed_place h clen p segs (rd : list byte -> list fevent * reading) p' log rest e :
  (forall l, h_clen h l = clen (flat l)) ->
  rinv2 p (hd [] segs) (List.concat (tl segs)) -> segs <> [] -> state_fn p <> StDetect1 -> state_fn p <> StDead ->
  state p = state_fn p ->
  (forall s, shows (rsem clen p [] s) (rd s)) ->
  feed h p segs = (p', log, rest, OError e) ->
  exists x b y e', List.concat segs = x ++ b :: y /\ (exists at_, snd (rd x) = Partial at_) /\
    snd (rd (x ++ [b])) = Wrong e' /\ same_kind e e' /\
    counted e (byte_count p + N.of_nat (List.length (List.concat segs))) p' y.
Proof.
  intros Hc I NE D DD St Sh F. unfold feed in F.
  destruct (client_place h clen Hc _ _ _ _ _ _ _ _ I (or_intror NE) (fun X => match D X with end) St F)
    as (L & e' & R & Q1 & Q2 & Q3).
  destruct (rsem_split clen p _ _ _ _ DD Q1) as (x & b & l1 & a1 & E1 & E2 & E3 & E4).
  exists x, b, R, e'. split; [exact E1|].
  pose proof (Sh x) as X1. pose proof (Sh (x ++ [b])) as X2. rewrite E2 in X1. rewrite E4 in X2.
  unfold shows in X1, X2. split.
  - destruct (snd (rd x)).
    + destruct X1 as (a & [= _ <- _] & X). contradiction.
    + eauto.
    + destruct X1 as [? X1]. discriminate X1.
    + discriminate X1.
  - destruct (snd (rd (x ++ [b]))).
    + destruct X2 as (a & X2 & _). discriminate X2.
    + destruct X2 as (a & X2 & _). discriminate X2.
    + destruct X2 as [? X2]. injection X2 as _ -> _. auto.
    + discriminate X2.
Qed.

(* Outside multipart bodies. *)
Lemma feed_place_exact h p segs (rd : list byte -> list fevent * reading) p' log rest e :
  parser_type p <> Multipart ->
  rinv2 p (hd [] segs) (List.concat (tl segs)) -> segs <> [] -> state_fn p <> StDetect1 -> state_fn p <> StDead ->
  state p = state_fn p ->
  (forall s, shows (rsem (fun _ => None) p [] s) (rd s)) ->
  feed h p segs = (p', log, rest, OError e) ->
  exists x b y, List.concat segs = x ++ b :: y /\
    byte_count p' = byte_count p + N.of_nat (S (List.length x)) /\
    (exists at_, snd (rd x) = Partial at_) /\ snd (rd (x ++ [b])) = Wrong e.
Proof.
  intros T I NE D DD St Sh F.
  pose proof (client_error _ _ _ _ _ _ _ _ _ (ri2_state _ _ _ I) T F) as M.
  unfold feed in F. rewrite (client_no_clen h) in F by (exact (ri2_state _ _ _ I) || exact T).
  destruct (feed_place (no_clen h) (fun _ => None) p segs rd p' log rest e (fun _ => eq_refl) I NE D DD St Sh F)
    as (x & b & y & e' & E1 & E2 & E3 & E4 & E5).
  exists x, b, y. split; [exact E1|]. rewrite E1, app_length in E5. cbn [List.length] in E5.
  unfold counted in E5. destruct e; try contradiction; cbn in E4; subst e';
    (split; [lia|split; assumption]).
Qed.

Lemma head_place h q segs p' log rest e : segs <> [] ->
  hok (strip (List.concat segs)) = true \/ (9 <= List.length (strip (hd [] segs)))%nat ->
  feed h (init_head q) segs = (p', log, rest, OError e) ->
  exists x b y, List.concat segs = x ++ b :: y /\
    byte_count p' = byte_count q + N.of_nat (S (List.length x)) /\
    (exists at_, snd (read_head x) = Partial at_) /\ snd (read_head (x ++ [b])) = Wrong e.
Proof.
  intros NE Hh. apply (feed_place_exact h (init_head q)); try reflexivity; try assumption; try discriminate.
  - constructor; try reflexivity; try discriminate.
    destruct Hh as [Hh|Hh]; [left|right; left; split; [reflexivity|assumption]].
    rewrite <- concat_hd. exact Hh.
  - intros s. exact (reads_message None (fun _ => None) s).
Qed.

Lemma chunked_place h q segs p' log rest e : segs <> [] ->
  feed h (init_chunked q) segs = (p', log, rest, OError e) ->
  exists x b y, List.concat segs = x ++ b :: y /\
    byte_count p' = byte_count q + N.of_nat (S (List.length x)) /\
    (exists at_, snd (read_chunked x) = Partial at_) /\ snd (read_chunked (x ++ [b])) = Wrong e.
Proof.
  intros NE. apply (feed_place_exact h (init_chunked q)); try reflexivity; try assumption; try discriminate.
  - constructor; try reflexivity; try discriminate. left; reflexivity.
  - intros s. exact (reads_chunked None (fun _ => None) _ [] s (le_n _)).
Qed.

Lemma url_place h q n segs p' log rest e : segs <> [] ->
  feed h (set_length (init_url_encoded q) n) segs = (p', log, rest, OError e) ->
  exists x b y, List.concat segs = x ++ b :: y /\
    byte_count p' = byte_count q + N.of_nat (S (List.length x)) /\
    (exists at_, snd (read_url_encoded n x) = Partial at_) /\ snd (read_url_encoded n (x ++ [b])) = Wrong e.
Proof.
  intros NE. apply (feed_place_exact h (set_length (init_url_encoded q) n)); try reflexivity; try assumption; try discriminate.
  - constructor; try reflexivity; try discriminate. left; reflexivity.
  - intros s. apply url_shows.
Qed.

Lemma feed_boundary h p segs : vstate (parser_type p) (state_fn p) = true ->
  boundary (fst (fst (fst (feed h p segs)))) = boundary p.
Proof.
  unfold feed. generalize (calls segs) as fuel. generalize (@nil event) as log. intros log fuel. revert p log segs.
  induction fuel as [|fuel IH]; intros p log segs V; destruct segs as [|seg more]; try reflexivity.
  cbn [client]. destruct (resume h p log seg) as [[p1 log1] r] eqn:R.
  pose proof (resume_facts_all _ _ _ _ _ _ _ V R) as RF. rewrite <- (rf_bd _ _ _ _ _ _ RF).
  destruct r as [[n|n|n]|e|f|]; try reflexivity; apply IH; exact (rf_vstate _ _ _ _ _ _ RF).
Qed.

Lemma multipart_place h clen q (bd : list byte) segs p' log rest e : segs <> [] ->
  (forall l, h_clen h l = clen (flat l)) ->
  ~ In 13 bd -> N.of_nat (List.length bd) <= 2 ^ 14 ->
  feed h (set_boundary (init_multipart q) bd) segs = (p', log, rest, OError e) ->
  exists x b y e', List.concat segs = x ++ b :: y /\
    (exists at_, snd (read_multipart bd clen x) = Partial at_) /\
    snd (read_multipart bd clen (x ++ [b])) = Wrong e' /\ same_kind e e' /\
    match e with
    | ErMultipartBoundary _ =>
        byte_count p' <= byte_count q + N.of_nat (S (List.length x)) < byte_count p' + N.max 1 (N.of_nat (List.length bd))
    | _ => byte_count p' = byte_count q + N.of_nat (S (List.length x))
    end.
Proof.
  intros NE Hc C Len F.
  destruct (feed_place h clen (set_boundary (init_multipart q) bd) segs (read_multipart bd clen) p' log rest e)
    as (x & b & y & e' & E1 & E2 & E3 & E4 & E5); try reflexivity; try assumption; try discriminate.
  - constructor; try reflexivity; try discriminate; [left; reflexivity|]. intros _. now split.
  - intros s. exact (reads_multipart bd clen _ [] s (le_n _)).
  - exists x, b, y, e'. repeat (split; [assumption|]).
    pose proof (feed_boundary h (set_boundary (init_multipart q) bd) segs eq_refl) as Bd. rewrite F in Bd. cbn [fst] in Bd.
    rewrite E1, app_length in E5. cbn [List.length] in E5.
    change (byte_count (set_boundary (init_multipart q) bd)) with (byte_count q) in E5.
    unfold counted, blen in E5. rewrite Bd in E5. cbn [set_boundary boundary] in E5.
    unfold byte in *. destruct e; lia.
Qed.

(* Where an error of a boundary is noticed depends on the cut. *)
Lemma boundary_place : exists bd segs1 segs2 b1 b2,
  List.concat segs1 = List.concat segs2 /\
  let '(p1, _, _, o1) := feed yes (set_boundary (init_multipart new) bd) segs1 in
  let '(p2, _, _, o2) := feed yes (set_boundary (init_multipart new) bd) segs2 in
  (o1, byte_count p1) = (OError (ErMultipartBoundary b1), 3) /\
  (o2, byte_count p2) = (OError (ErMultipartBoundary b2), 5).
Proof. exists (bs "abc"), [bs "--abx"], [bs "--ab"; bs "x"], 97, 120. vm_compute. repeat split. Qed.
