(* Where errors in a head are noticed and what they lose, wherever the stream is
   cut. *)

From Coq Require Import NArith List Bool Arith String Lia.
From Verif Require Import Bytes ByteStream Http1Model Http1Base Http1Wp Http1Term Http1Spec Http1Sem
  Http1Sim Http1Step Http1Misc Http1Run Http1Client Http1Api Http1Url Http1Count Http1Protocol Http1Data Http1Wire
  Http1Round Http1Round2 Http1Accept Http1Parse Http1Parse2 Http1Parse4 Http1Reader Http1Reads Http1Reads2 Http1Reads3
  Http1Understood Http1Cuts Http1CutsFacts Http1Place Http1LostStep Http1Lost Http1LostFacts.
Import ListNotations.
Local Open Scope N_scope.

(* The pieces segs, of meaning X, end in the error e; n bytes are counted before. *)
Definition wrong (e : perror) (X : aout) (n : N) (segs : list (list byte)) (p' : parser) (log' : list event) : Prop :=
  exists L e' R, X = AFail L e' R /\ same_kind e e' /\
    counted e (n + N.of_nat (List.length (List.concat segs))) p' R /\ loses e L n segs p' log'.

Lemma wrong_skip e X n k seg more p' log' : (k <= List.length seg)%nat ->
  wrong e X (n + N.of_nat k) (skipn k seg :: more) p' log' -> wrong e X n (seg :: more) p' log'.
Proof.
  intros K (L & e' & R & Q1 & Q2 & Q3 & k0 & d & Q4 & Q5). exists L, e', R. split; [exact Q1|]. split; [exact Q2|].
  assert (Ln : List.length (firstn k seg) = k) by (rewrite firstn_length; lia).
  split.
  - replace (n + N.of_nat (List.length (List.concat (seg :: more))))
      with (n + N.of_nat k + N.of_nat (List.length (List.concat (skipn k seg :: more)))); [exact Q3|].
    cbn [List.concat]. rewrite !app_length, skipn_length. lia.
  - exists k0, d. split; [exact Q4|]. destruct Q5 as [Q5|(Nb & bef & x & b & y & aft & Q5 & Q6)]; [now left|right].
    split; [exact Nb|]. destruct bef as [|s0 bef].
    + injection Q5 as Q5 Q7. exists [], (firstn k seg ++ x), b, y, aft. split.
      * cbn [app]. rewrite <- app_assoc, <- Q5, firstn_skipn. now subst.
      * rewrite Q6. cbn [List.concat app]. rewrite !app_length. lia.
    + injection Q5 as Q5 Q7. exists (seg :: bef), x, b, y, aft. split.
      * cbn [app]. now rewrite Q7.
      * rewrite Q6. cbn [List.concat app]. rewrite <- Q5. rewrite !app_length, skipn_length. lia.
Qed.

Lemma wrong_cons e X n seg more p' log' :
  wrong e X (n + N.of_nat (List.length seg)) more p' log' -> wrong e X n (seg :: more) p' log'.
Proof.
  intros (L & e' & R & Q1 & Q2 & Q3 & k0 & d & Q4 & Q5). exists L, e', R. split; [exact Q1|]. split; [exact Q2|].
  split.
  - replace (n + N.of_nat (List.length (List.concat (seg :: more))))
      with (n + N.of_nat (List.length seg) + N.of_nat (List.length (List.concat more))); [exact Q3|].
    cbn [List.concat]. rewrite !app_length. lia.
  - exists k0, d. split; [exact Q4|]. destruct Q5 as [Q5|(Nb & bef & x & b & y & aft & Q5 & Q6)]; [now left|right].
    split; [exact Nb|]. exists (seg :: bef), x, b, y, aft. split; [cbn [app]; now rewrite Q5|].
    rewrite Q6. cbn [List.concat]. rewrite !app_length. lia.
Qed.

Section Errors.
  Variables (h : handler) (clen : list fevent -> option N).
  Hypothesis Hclen : forall l, h_clen h l = clen (flat l).

  Lemma client_wrong fuel p log segs p' log' rest e :
    rinv2 p (hd [] segs) (List.concat (tl segs)) -> (settled p \/ segs <> []) ->
    (state_fn p = StDetect1 -> hd [] segs <> []) -> state p = state_fn p ->
    client fuel h p log segs = (p', log', rest, OError e) ->
    wrong e (rsem clen p (flat log) (List.concat segs)) (byte_count p) segs p' log'.
  Proof.
    intros I Se N St E.
    destruct (client_place h clen Hclen _ _ _ _ _ _ _ _ I Se N St E) as (L & e' & R & Q1 & Q2 & Q3).
    destruct (client_lost h clen Hclen _ _ _ _ _ _ _ _ I Se N St E) as (L1 & e1 & R1 & Q4 & Q5).
    rewrite Q1 in Q4. injection Q4 as <- <- <-. now exists L, e', R.
  Qed.

  (* A client, of whose first call the part from m on is given. *)
  Lemma client_rest_wrong fuel m s more m' o0 p1 c1 log1 r p' log' rest e :
    loop h m m' o0 -> inv m -> ready (state_fn (mp m)) (crest (mc m)) (List.concat more) ->
    parser_type (mp m) = Head -> suf s (window (mc m)) ->
    (cindex (mc m) + List.length (crest (mc m)) = List.length s)%nat ->
    state (mp m) = state_fn (mp m) ->
    (Mach p1 c1 log1, r) = finish m' o0 ->
    match r with
    | ROk (SEos n) => client fuel h p1 log1 more
    | ROk (SCallback n) => client fuel h p1 log1 (skipn n s :: more)
    | ROk (SFinished n) => (p1, log1, skipn n s ++ List.concat more, OFinished)
    | RErr e => (p1, log1, [], OError e)
    | RFault f => (p1, log1, [], OFault f)
    | RFuel => (p1, log1, [], OFuel)
    end = (p', log', rest, OError e) ->
    wrong e (psem clen (mp m) (flat (ml m) ++ pend (state_fn (mp m)) (cslice (mc m)))
                (crest (mc m) ++ List.concat more)) (byte_count (mp m)) (s :: more) p' log'.
  Proof.
    intros L I0 D HT SW PO St0 F E.
    assert (SU : suf s (crest (mc m))).
    { apply suf_trans with (window (mc m)); [exact SW|]. exists (cslice (mc m)). reflexivity. }
    destruct (loop_rest h clen Hclen _ _ _ _ _ _ _ _ _ L I0 D HT SU PO F) as (S & T1 & B1 & St).
    specialize (St St0).
    pose proof (lf_count _ _ _ (loop_facts_all h _ _ _ L)) as Lc.
    pose proof (lf_pos _ _ _ (loop_facts_all h _ _ _ L)) as Lp.
    pose proof (loop_lost h clen Hclen _ _ _ _ L I0 D) as [LW LL].
    pose proof (loop_sim h clen Hclen _ _ _ _ L I0 D) as LS. unfold loop_post in LS.
    set (l0 := flat (ml m) ++ pend (state_fn (mp m)) (cslice (mc m))) in *.
    change (sem clen m) with (psem clen (mp m) l0 (crest (mc m))) in *.
    destruct r as [[n|n|n]|e0|f|]; try discriminate E.
    - assert (Bc : byte_count p1 = byte_count (mp m) + N.of_nat n).
      { unfold finish in F. destruct o0 as [|[x|x|x]|x|x]; try discriminate F. injection F as -> _ _ ->.
        cbn [with_p mp add_count byte_count]. rewrite Lc.
        now destruct (lf_cb _ _ _ (loop_facts_all h _ _ _ L) x eq_refl) as [-> _]. }
      destruct S as (S1 & S2 & S3 & S4).
      assert (EX : psem clen (mp m) l0 (crest (mc m) ++ List.concat more) =
                   psem clen p1 (flat log1) (skipn n s ++ List.concat more))
        by (apply psem_ext; congruence).
      apply (wrong_skip _ _ _ n); [exact S1|]. rewrite EX, <- Bc, <- (rsem_head clen) by exact T1.
      apply (client_wrong fuel p1 log1 (skipn n s :: more) p' log' rest e (rinv_rinv2 _ _ _ S3)
                  (or_intror (@not_eq_sym _ _ _ (@nil_cons _ _ _))) (fun X => match S4 X with end)
                  (St ltac:(discriminate)) E).
    - assert (Bc : byte_count p1 = byte_count (mp m) + N.of_nat n).
      { unfold finish in F. destruct o0 as [|[x|x|x]|x|x]; try discriminate F. injection F as -> _ _ ->.
        cbn [with_p mp add_count byte_count]. rewrite Lc.
        now destruct (lf_eos _ _ _ (loop_facts_all h _ _ _ L) x eq_refl) as (_ & _ & ->). }
      destruct S as (S1 & S2 & S3 & S4 & S5).
      assert (EX : psem clen (mp m) l0 (crest (mc m) ++ List.concat more) =
                   psem clen p1 (flat log1) (List.concat more))
        by (change (List.concat more) with ([] ++ List.concat more) at 2; apply psem_ext; congruence).
      assert (SE : settled p1) by (split; [assumption|congruence]).
      apply wrong_cons. rewrite EX, <- S1, <- Bc, <- (rsem_head clen) by exact T1.
      exact (client_wrong fuel p1 log1 more p' log' rest e
                  (rinv_rinv2 _ _ _ (eq_ind _ _ S3 _ (concat_hd more))) (or_introl SE)
                  (fun X => match S4 X with end) (St ltac:(discriminate)) E).
    - injection E as <- <- <- <-. clear S.
      unfold finish in F. destruct o0 as [|[x|x|x]|x|x]; try discriminate F. injection F as -> _ -> ->.
      destruct LS as (L1 & e' & R & S1 & S2 & _ & S4). destruct LL as (L2 & e2 & R2 & S5 & k & d & S6 & S7).
      rewrite S1 in S5. injection S5 as <- <- <-.
      exists L1, e', (R ++ List.concat more). split; [now rewrite psem_app, S1|]. split; [exact S2|].
      assert (Bc : byte_count (mp m') + N.of_nat (cindex (mc m')) = byte_count (mp m) + N.of_nat (cindex (mc m')))
        by now rewrite Lc.
      split.
      + cbn [List.concat with_p mp]. rewrite app_length. revert S4. unfold placed, counted, blen.
        cbn [p_set_state add_count byte_count boundary]. rewrite Bc, app_length. unfold byte in *. destruct x; intros S4; lia.
      + exists k, d. split; [exact S6|]. destruct S7 as [S7|(Nb & z & b & S7)]; [now left|right].
        split; [now destruct x|]. destruct SW as [x0 SW]. destruct LW as [x1 LW].
        assert (Es : s = (x0 ++ x1 ++ z) ++ d ++ b :: crest (mc m')).
        { rewrite SW, LW. unfold window. rewrite S7, <- !app_assoc. reflexivity. }
        exists [], (x0 ++ x1 ++ z), b, (crest (mc m')), more. split; [cbn [app]; now rewrite Es|].
        cbn [with_p mp p_set_state add_count byte_count]. rewrite Bc. f_equal. f_equal.
        rewrite Es in PO. rewrite !app_length in *. cbn [List.concat List.length] in *. unfold byte in *. lia.
  Qed.
  Lemma without_suf w : forall s, suf s (without w s).
  Proof.
    induction w as [|c w IH]; intros [|b s]; cbn [without]; try apply suf_refl.
    destruct (b =? c); [apply suf_cons, IH|apply suf_refl].
  Qed.

  Definition off_wrong_client (fuel : nat) : Prop := forall p log segs p' log' rest e,
    after_h (state_fn p) = true -> parser_type p = Head -> state p = state_fn p ->
    cmpb (List.concat segs) (rem (state_fn p)) = false ->
    client fuel h p log segs = (p', log', rest, OError e) ->
    wrong e (off_sem clen (boundary p) (flat log) (without (rem (state_fn p)) (List.concat segs))) (byte_count p)
          segs p' log'.

  Lemma off_rest_wrong fuel m s more m' o0 p1 c1 log1 r p' log' rest e :
    off_wrong_client fuel ->
    loop h m m' o0 -> after_h (state_fn (mp m)) = true -> parser_type (mp m) = Head ->
    state (mp m) = state_fn (mp m) ->
    cslice (mc m) = [] -> suf s (crest (mc m)) ->
    (cindex (mc m) + List.length (crest (mc m)) = List.length s)%nat ->
    cmpb (crest (mc m) ++ List.concat more) (rem (state_fn (mp m))) = false ->
    (Mach p1 c1 log1, r) = finish m' o0 ->
    match r with
    | ROk (SEos n) => client fuel h p1 log1 more
    | ROk (SCallback n) => client fuel h p1 log1 (skipn n s :: more)
    | ROk (SFinished n) => (p1, log1, skipn n s ++ List.concat more, OFinished)
    | RErr e => (p1, log1, [], OError e)
    | RFault f => (p1, log1, [], OFault f)
    | RFuel => (p1, log1, [], OFuel)
    end = (p', log', rest, OError e) ->
    wrong e (off_sem clen (boundary (mp m)) (flat (ml m))
      (without (rem (state_fn (mp m))) (crest (mc m) ++ List.concat more))) (byte_count (mp m)) (s :: more) p' log'.
  Proof.
    intros IH L H T St0 SL SU PO C F E.
    pose proof (lf_count _ _ _ (loop_facts_all h _ _ _ L)) as Lc.
    pose proof (lf_pos _ _ _ (loop_facts_all h _ _ _ L)) as Lp.
    destruct (loop_off h _ _ _ _ L H SL C)
      as [A1 A2 A3 A4 A5 A6 A7 A8 A9|b y m1 B1 B2 B3 B4 B5 B6 B7 B8 B9 B10 B11 B12|b z C1 C2 C3 C4 C5].
    - subst o0. cbn [finish] in F. injection F as -> -> -> ->. unfold with_p in E; cbn [mp mc ml] in E.
      rewrite A9, <- A5, <- A3. apply wrong_cons.
      pose proof (IH (add_count (mp m') (cindex (mc m'))) (ml m') more p' log' rest e) as X.
      cbn [add_count state_fn parser_type boundary state byte_count] in X.
      specialize (X A7 ltac:(congruence) (A6 St0) A8 E). rewrite Lc in X.
      rewrite A2 in Lp. cbn [List.length] in Lp.
      replace (List.length s) with (cindex (mc m')) by lia. exact X.
    - rewrite B12. cbn [off_sem]. rewrite B11, aexec_method by exact B11.
      assert (I1 : inv m1).
      { constructor; try rewrite B3; try rewrite B5, T; try reflexivity; try discriminate; try exact I. }
      assert (R1 : ready (state_fn (mp m1)) (crest (mc m1)) (List.concat more)) by (left; rewrite B3; reflexivity).
      assert (SW : suf s (window (mc m1))).
      { unfold window. rewrite B7, B8. apply suf_trans with (crest (mc m)); [exact SU|].
        destruct (without_suf (rem (state_fn (mp m))) (crest (mc m) ++ List.concat more)) as [u U].
        rewrite B12 in U. change (b :: y ++ List.concat more) with ((b :: y) ++ List.concat more) in U.
        rewrite app_assoc in U. apply app_inv_tail in U. exists u. exact U. }
      pose proof (client_rest_wrong fuel m1 s more m' o0 p1 c1 log1 r p' log' rest e B1 I1 R1 ltac:(congruence)
                  SW ltac:(rewrite B8; lia) ltac:(congruence) F E) as X1.
      unfold psem in X1. rewrite B5, T, B6, B2, B3, B7, B8, (alpha_method (mp m1)) in X1 by congruence.
      rewrite <- Lc, (lf_count _ _ _ (loop_facts_all h _ _ _ B1)). exact X1.
    - subst o0. cbn [finish] in F. injection F as -> -> -> ->. injection E as <- <- <- <-.
      rewrite C4. cbn [off_sem]. rewrite C3. exists (flat (ml m)), (ErMethod b), z.
      split; [reflexivity|]. split; [reflexivity|]. split.
      + cbn [counted with_p mp p_set_state add_count byte_count List.concat]. rewrite Lc, C5, !app_length. lia.
      + exists KMethod, []. cbn [with_p ml]. rewrite C2, app_nil_r. split; [reflexivity|now left].
  Qed.

  Lemma off_wrong_clients fuel : off_wrong_client fuel.
  Proof.
    induction fuel as [|fuel IH]; intros p log segs p' log' rest e H T St C E.
    - destruct segs as [|seg more]; discriminate E.
    - destruct segs as [|seg more]; [discriminate E|]. cbn [client] in E.
      unfold resume in E. rewrite T in E. cbv iota in E.
      destruct (parse (fuel_of seg) h (Mach p (bs_new seg) log)) as [[p1 c1 log1] r] eqn:P.
      destruct (parse_start h _ _ _ _ _ P) as (m' & o & L & F). cbn [mp ml] in E.
      refine (off_rest_wrong fuel (Mach p (bs_new seg) log) seg more m' o p1 c1 log1 r _ _ _ _ IH L H T St eq_refl (suf_refl _) _ C F E).
      reflexivity.
  Qed.
End Errors.

(* ------------------------------------------------------------------ *)
(* The wrong byte                                                       *)
(* ------------------------------------------------------------------ *)

(* An error X in the stream S is noticed at the first wrong byte; n bytes are
   left then. *)
Definition noticed (en : bool) (X : aout) (S : list byte) : Prop :=
  forall L e R, X = AFail L e R ->
  exists x b, S = x ++ b :: R /\ (exists at_, snd (head_from en (strip x)) = Partial at_) /\
    snd (head_from en (strip (x ++ [b]))) = Wrong e.

Lemma shows_wrong L e R r : shows (AFail L e R) r -> snd r = Wrong e.
Proof.
  unfold shows. destruct (snd r).
  - intros (a & E & _). discriminate E.
  - intros (a & E & _). discriminate E.
  - intros [y [= _ -> _]]. reflexivity.
  - discriminate.
Qed.

Lemma shows_partial l a r : a_st a <> StFinished -> shows (ADone l a []) r -> exists at_, snd r = Partial at_.
Proof.
  intros N. unfold shows. destruct (snd r).
  - intros (a' & [= _ <- _] & E). contradiction.
  - eauto.
  - intros [y E]. discriminate E.
  - discriminate.
Qed.

Lemma cmpb_prefix w : forall a b, cmpb (a ++ b) w = true -> cmpb a w = true.
Proof.
  induction w as [|c w IH]; intros [|x a] b; try reflexivity. cbn [app cmpb].
  intros E. apply andb_true_iff in E. destruct E as [-> E]. cbn [andb]. now apply IH in E.
Qed.

Lemma hok_prefix a b : hok (strip (a ++ b)) = true -> hok (strip a) = true.
Proof.
  rewrite strip_app. destruct (strip a) as [|x m]; [reflexivity|]. cbn [app hok].
  destruct (x =? 72); [|reflexivity]. apply cmpb_prefix.
Qed.

Section Noticed.
  Variable clen : list fevent -> option N.

  Lemma easy_noticed en bd S : (en = true \/ hok (strip S) = true) ->
    noticed en (aexec Head bd clen (A StStripDetect 0 0 0) [] S) S.
  Proof.
    intros Hh L e R E.
    destruct (afail_split Head bd clen S (A StStripDetect 0 0 0) [] L e R ltac:(discriminate) E)
      as (x & b & l1 & a1 & E1 & E2 & E3 & E4).
    exists x, b. split; [exact E1|].
    assert (Ok : forall u v, S = u ++ v -> head_from en (strip u) = head_from true (strip u)).
    { intros u v ->. destruct Hh as [->|Hh]; [reflexivity|]. apply head_from_ok. exact (hok_prefix _ _ Hh). }
    rewrite (Ok x (b :: R) E1), (Ok (x ++ [b]) R) by (now rewrite <- app_assoc).
    split.
    - apply (shows_partial l1 a1); [exact E3|]. rewrite <- E2. exact (reads_message bd clen x).
    - apply (shows_wrong L e []). rewrite <- E4. exact (reads_message bd clen (x ++ [b])).
  Qed.

  Lemma without_split W : forall s, cmpb s W = false ->
    exists c b z, s = c ++ b :: z /\ without W s = b :: z /\ begins W c = false /\ begins c W = true /\
      forall z', cmpb (c ++ b :: z') W = false /\ without W (c ++ b :: z') = b :: z'.
  Proof.
    induction W as [|w W IH]; intros [|x s] C; try discriminate C. cbn [cmpb without] in C |- *.
    destruct (x =? w) eqn:E.
    - cbn [andb] in C. destruct (IH s C) as (c & b & z & -> & E1 & E2 & E3 & E4).
      exists (x :: c), b, z. cbn [app begins cmpb without]. rewrite (N.eqb_sym w x), E. cbn [andb].
      repeat split; auto; apply E4.
    - exists [], x, s. cbn [app begins cmpb without]. rewrite E. repeat split; auto.
  Qed.

  Lemma strip_front S m : strip S = 72 :: m ->
    exists ws, S = ws ++ 72 :: m /\ forall z, strip (ws ++ 72 :: z) = 72 :: z.
  Proof.
    induction S as [|b S IH]; [discriminate|]. cbn [strip].
    destruct ((b =? 13) || (b =? 10) || (b =? 9) || (b =? 32)) eqn:W.
    - intros E. destruct (IH E) as (ws & -> & X). exists (b :: ws). split; [reflexivity|].
      intros z. cbn [app strip]. now rewrite W.
    - intros [= -> ->]. exists []. now split.
  Qed.

  Lemma off_noticed bd S y : strip S = 72 :: y -> cmpb y (bs "TTP/") = false ->
    noticed false (off_sem clen bd [] (without (bs "TTP/") y)) S.
  Proof.
    intros SS C L e R E. destruct (strip_front _ _ SS) as (ws & -> & WS).
    destruct (without_split _ _ C) as (c & b & z & -> & E1 & E2 & E3 & E4). rewrite E1 in E. cbn [off_sem] in E.
    assert (Sh : forall z', shows (off_sem clen bd [] (b :: z')) (head_from false (72 :: c ++ b :: z'))).
    { intros z'. destruct (E4 z') as [C' W'].
      pose proof (off_shows clen bd 72 (c ++ b :: z') eq_refl C') as X. now rewrite W' in X. }
    cbn [off_sem] in Sh. destruct (is_upper b) eqn:U.
    - destruct (afail_split Head bd clen (b :: z) (A StRequestMethod 0 0 0) [] L e R ltac:(discriminate) E) as (x & b' & l1 & a1 & Q1 & Q2 & Q3 & Q4).
      destruct x as [|b1 x].
      { exfalso. cbn [app] in Q1, Q4. injection Q1 as <- _. rewrite aexec_method in Q4 by exact U.
        rewrite aexec_nil in Q4 by reflexivity. discriminate Q4. }
      cbn [app] in Q1. injection Q1 as <- ->. exists (ws ++ 72 :: c ++ b :: x), b'. split.
      { rewrite <- app_assoc. cbn [app]. now rewrite <- app_assoc. }
      split.
      + rewrite WS. apply (shows_partial l1 a1 _ Q3). rewrite <- Q2. apply Sh.
      + rewrite <- app_assoc. cbn [app]. rewrite <- app_assoc. cbn [app]. rewrite WS.
        apply (shows_wrong L e []). rewrite <- Q4. apply (Sh (x ++ [b'])).
    - injection E as <- <- <-. cbn [tl]. exists (ws ++ 72 :: c), b. split.
      { rewrite <- app_assoc. reflexivity. }
      split.
      + rewrite WS. unfold head_from.
        change (begins (bs "HTTP/") (72 :: c)) with (begins (bs "TTP/") c). rewrite E2.
        change (begins (72 :: c) (bs "HTTP/")) with (begins c (bs "TTP/")). rewrite E3. eexists. reflexivity.
      + rewrite <- app_assoc. cbn [app]. rewrite WS. exact (shows_wrong _ _ _ _ (Sh [])).
  Qed.
End Noticed.

Section Cut.
  Variables (h : handler) (clen : list fevent -> option N).
  Hypothesis Hclen : forall l, h_clen h l = clen (flat l).

  Definition cut_errors (n : N) (segs : list (list byte)) (p' : parser) (log' : list event) (e : perror) : Prop :=
    exists X, wrong e X n segs p' log' /\ shows X (read_cut_head segs) /\
      noticed (9 <=? List.length (first_part segs))%nat X (List.concat segs).

  Lemma easy_errors fuel p segs p' log' rest e :
    parser_type p = Head -> state_fn p = StStripDetect -> state p = state_fn p -> segs <> [] ->
    hok (strip (List.concat segs)) = true \/
      (9 <= List.length (strip (hd [] segs)))%nat /\ first_part segs = strip (hd [] segs) ->
    client fuel h p [] segs = (p', log', rest, OError e) ->
    cut_errors (byte_count p) segs p' log' e.
  Proof.
    intros T S St NE Hh E.
    assert (I : rinv2 p (hd [] segs) (List.concat (tl segs))).
    { constructor; rewrite ?T, ?S; try reflexivity; try discriminate.
      destruct Hh as [Hh|[Hh _]]; [left|right; left; split; [reflexivity|assumption]].
      rewrite <- concat_hd. exact Hh. }
    pose proof (client_wrong h clen Hclen fuel p [] segs _ _ _ _ I (or_intror NE) ltac:(rewrite S; discriminate) St E) as P.
    rewrite rsem_head in P by exact T. eexists. split; [exact P|].
    unfold psem, alpha. rewrite T, S. change (flat []) with (@nil fevent). split.
    - assert (X : read_cut_head segs = head_from true (strip (List.concat segs))).
      { unfold read_cut_head. destruct Hh as [Hh|[Hh ->]]; [now apply head_from_ok|].
        apply Nat.leb_le in Hh. now rewrite Hh. }
      rewrite X. exact (reads_message (boundary p) clen (List.concat segs)).
    - apply easy_noticed. destruct Hh as [Hh|[Hh ->]]; [now right|left]. now apply Nat.leb_le.
  Qed.

  Lemma cut_client_errors fuel : forall p segs p' log' rest e,
    parser_type p = Head -> state_fn p = StStripDetect -> state p = state_fn p -> segs <> [] ->
    client fuel h p [] segs = (p', log', rest, OError e) ->
    cut_errors (byte_count p) segs p' log' e.
  Proof.
    induction fuel as [|fuel IH]; intros p segs p' log' rest e T S St NE E.
    { destruct segs; discriminate E. }
    destruct (hok (strip (List.concat segs))) eqn:Hh.
    { apply (easy_errors (Datatypes.S fuel) p segs p' log' rest e); auto. }
    destruct segs as [|seg more]; [congruence|].
    pose proof (run_strip h p seg [] S) as R.
    destruct (strip seg) as [|b y] eqn:W.
    - (* nothing but white space *)
      destruct R as (cb & R). cbn [client] in E. unfold resume in E. rewrite T in E. cbv iota in E.
      destruct (parse (fuel_of seg) h (Mach p (bs_new seg) [])) as [[p1 c1 log1] r] eqn:P.
      destruct (parse_start h _ _ _ _ _ P) as (m' & o1 & L & F).
      destruct L as [m m' o1 R' N|m m1 m' o1 R' L]; [|congruence].
      rewrite R in R'. injection R' as <- <-. cbn [finish] in F. injection F as -> _ -> ->.
      cbn [mp ml with_p mc] in E. unfold cindex in E. cbn [cmark cslice] in E.
      assert (NM : more <> []).
      { intros ->. cbn [List.concat] in Hh. rewrite app_nil_r, W in Hh. discriminate Hh. }
      destruct (IH (add_count p (List.length seg)) more _ _ _ _ T S St NM E) as (X & X1 & X2 & X3).
      exists X. split; [now apply wrong_cons|].
      unfold read_cut_head. cbn [first_part List.concat]. rewrite W, strip_app, W.
      split; [exact X2|].
      intros L e0 R0 EX. destruct (X3 _ _ _ EX) as (x & b & Q1 & Q2 & Q3). exists (seg ++ x), b.
      rewrite <- !app_assoc, Q1, !(strip_app seg), W. auto.
    - destruct (Nat.leb_spec 9 (List.length (b :: y))) as [Y|Y].
      { apply (easy_errors (Datatypes.S fuel) p (seg :: more) p' log' rest e); auto. right.
        cbn [hd first_part]. rewrite W. auto. }
      cbn [List.concat] in Hh. rewrite strip_app, W in Hh.
      destruct (hok_bad _ Hh) as (z & Ez & C). cbn [app] in Ez. injection Ez as -> Ez. rewrite <- Ez in C.
      destruct R as (cb & mk & R & M1 & M2). cbn [client] in E. unfold resume in E. rewrite T in E. cbv iota in E.
      destruct (parse (fuel_of seg) h (Mach p (bs_new seg) [])) as [[p1 c1 log1] r] eqn:P.
      destruct (parse_start h _ _ _ _ _ P) as (m' & o1 & L & F). cbn [mp ml] in E.
      pose proof (loop_first h _ _ _ _ R L) as L1.
      assert (R1 : run_fn h (Mach (p_set_state p StDetect1) (Ctx cb mk [] (72 :: y)) []) =
                   (Mach (p_set_state (p_set_state p StDetect1) StDetect2) (Ctx cb (mk + 1) [] y) [], Continue)).
      { apply detect1_short. cbn [List.length] in Y. lia. }
      pose proof (loop_first h _ _ _ _ R1 L1) as L2.
      pose proof (off_rest_wrong h clen Hclen fuel _ seg more m' o1 p1 c1 log1 r p' log' rest e
                    (off_wrong_clients h clen Hclen fuel) L2) as X.
      cbn [mp mc ml crest cslice state_fn parser_type p_set_state boundary rem state byte_count] in X.
      specialize (X eq_refl T eq_refl eq_refl
                    ltac:(apply suf_trans with (72 :: y); [exact M2|apply suf_cons, suf_refl])
                    ltac:(unfold cindex; cbn [cmark cslice List.length] in *; lia) C F E).
      eexists. split; [exact X|].
      assert (En : (9 <=? List.length (first_part (seg :: more)))%nat = false).
      { cbn [first_part]. rewrite W. now apply Nat.leb_gt. }
      assert (SS : strip (List.concat (seg :: more)) = 72 :: y ++ List.concat more).
      { cbn [List.concat]. now rewrite strip_app, W. }
      unfold read_cut_head. rewrite En, SS. split.
      + now apply off_shows.
      + now apply off_noticed.
  Qed.
End Cut.

Lemma cut_head_errors h q segs p' log rest e : segs <> [] ->
  feed h (init_head q) segs = (p', log, rest, OError e) ->
  cut_errors (byte_count q) segs p' log e.
Proof.
  intros NE F. unfold feed in F. rewrite (client_no_clen h) in F by (reflexivity || discriminate).
  exact (cut_client_errors (no_clen h) (fun _ => None) (fun _ => eq_refl) _ (init_head q) segs _ _ _ _ eq_refl eq_refl eq_refl NE F).
Qed.

Lemma cut_head_place h q segs p' log rest e : segs <> [] ->
  feed h (init_head q) segs = (p', log, rest, OError e) ->
  let enough := (9 <=? List.length (first_part segs))%nat in
  exists x b y, List.concat segs = x ++ b :: y /\
    byte_count p' = byte_count q + N.of_nat (S (List.length x)) /\
    (exists at_, snd (head_from enough (strip x)) = Partial at_) /\
    snd (head_from enough (strip (x ++ [b]))) = Wrong e.
Proof.
  intros NE F. cbv zeta.
  pose proof (client_error h _ (init_head q) _ _ _ _ _ _ eq_refl ltac:(discriminate) F) as M.
  destruct (cut_head_errors _ _ _ _ _ _ _ NE F) as (X & (L & e' & R & E1 & E2 & E3 & _) & _ & N).
  destruct (N _ _ _ E1) as (x & b & Q1 & Q2 & Q3). exists x, b, R. split; [exact Q1|].
  rewrite Q1, app_length in E3. cbn [List.length] in E3.
  unfold counted in E3. destruct e; try contradiction; cbn in E2; subst e'; (split; [lia|split; assumption]).
Qed.

Lemma cut_head_lost h q segs p' log rest e : segs <> [] ->
  feed h (init_head q) segs = (p', log, rest, OError e) ->
  loses e (fst (read_cut_head segs)) (byte_count q) segs p' log.
Proof.
  intros NE F.
  destruct (cut_head_errors _ _ _ _ _ _ _ NE F) as (X & (L & e' & R & E1 & _ & _ & E4) & S & _).
  subst X. unfold shows in S. destruct (snd (read_cut_head segs)).
  - destruct S as (a & S & _). discriminate S.
  - destruct S as (a & S & _). discriminate S.
  - destruct S as [? S]. injection S as -> _ _. exact E4.
  - discriminate S.
Qed.

Lemma bytewise_cut s : read_cut_head (bytewise s) = head_from false (strip s).
Proof.
  unfold read_cut_head. rewrite bytewise_concat. f_equal. unfold bytewise. induction s as [|b s IH]; [reflexivity|].
  cbn [map first_part strip]. now destruct ((b =? 13) || (b =? 10) || (b =? 9) || (b =? 32)).
Qed.

Lemma cut_head_bytewise h q s p' log rest e :
  feed h (init_head q) (bytewise s) = (p', log, rest, OError e) -> flat log = fst (head_from false (strip s)).
Proof.
  intros F. rewrite <- bytewise_cut.
  exact (bytewise_loses _ _ _ _ _ _ (cut_head_lost _ _ _ _ _ _ _ (bytewise_none _ _ _ _ _ _ _ F) F)).
Qed.
