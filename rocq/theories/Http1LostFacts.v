(* What an error loses. *)

From Coq Require Import NArith List Bool Arith String Lia.
From Verif Require Import Bytes ByteStream Http1Model Http1Base Http1Wp Http1Term Http1Spec Http1Sem
  Http1Sim Http1Step Http1Misc Http1Run Http1Client Http1Api Http1Url Http1Count Http1Protocol Http1Data Http1Wire
  Http1Round Http1Round2 Http1Accept Http1Parse Http1Parse2 Http1Parse4 Http1Reader Http1Reads Http1Reads2 Http1Reads3
  Http1Understood Http1Place Http1LostStep Http1Lost.
Import ListNotations.
Local Open Scope N_scope.

(* The slice is followed by the bytes left. *)
Definition window (c : ctx) : list byte := cslice c ++ crest c.

Lemma run_fn_window h m : wp (run_fn h m) (fun m' _ => suf (window (mc m)) (window (mc m'))).
Proof.
  destruct m as [p [cb mk sl r] l]. unfold run_fn. cbn [mp].
  destruct (state_fn p) eqn:Efn; unfold_state; lits.
  all: wp_all.
  all: unfold window; cbn [mc cslice crest].
  all: rewrite <- ?app_assoc; cbn [app].
  all: rewrite ?firstn_skipn, ?app_nil_r.
  all: solve [suf_tac].
Qed.

Section Lost.
  Variables (h : handler) (clen : list fevent -> option N).
  Hypothesis Hclen : forall l, h_clen h l = clen (flat l).

Lemma loop_lost t m m' o :
  loop h m m' o -> inv m -> ready (state_fn (mp m)) (crest (mc m)) t ->
  suf (window (mc m)) (window (mc m')) /\
  match o with
  | Fail e => exists L e' R, sem clen m = AFail L e' R /\ lost e (cslice (mc m')) (flat (ml m')) L
  | _ => True
  end.
Proof.
  intros L. induction L as [m m' o R N|m m1 m' o R L IH]; intros I D;
    pose proof (wp_run _ _ (run_fn_window h m) _ _ R) as W; cbv beta in W.
  - split; [exact W|]. exact (wp_run _ _ (run_fn_lost h clen m I) _ _ R).
  - pose proof (wp_run _ _ (run_fn_sim h clen Hclen m I) _ _ R) as S. cbn [sim_post] in S.
    destruct S as [S I1].
    assert (DD : cslice (mc m) = [] \/ Http1Misc.detecting (state_fn (mp m)) = false).
    { destruct (Http1Misc.detecting (state_fn (mp m))) eqn:E; [left|now right].
      apply (inv_slice _ I). now destruct (state_fn (mp m)). }
    pose proof (wp_run _ _ (run_fn_sdok h t m DD D (inv_d1 _ I)) _ _ R) as S2. cbn [sdok_post] in S2.
    destruct (IH I1 S2) as [W' F]. split; [now apply suf_trans with (window (mc m1))|]. rewrite S. exact F.
Qed.

(* The bytes lost are in the piece s. *)
Definition missing (e : perror) (L : list fevent) (n : N) (s : list byte) (p' : parser) (log' : list event) : Prop :=
  exists k d, L = flat log' ++ map (FByte k) d /\
    (d = [] \/ no_bd e /\ exists x b y, s = x ++ d ++ b :: y /\
                 byte_count p' = n + N.of_nat (List.length (x ++ d ++ [b]))).

Lemma parse_lost p s log t p' log' c' e :
  rinv2 p s t -> (state_fn p = StDetect1 -> s <> []) ->
  parse (fuel_of s) h (Mach p (bs_new s) log) = (Mach p' c' log', RErr e) ->
  exists L e' R, psem clen p (flat log) s = AFail L e' R /\ missing e L (byte_count p) s p' log'.
Proof.
  intros I N E. destruct (parse_start h _ _ _ _ _ E) as (m & o & L & F).
  pose proof (start_inv _ _ _ log I N) as I0.
  destruct (loop_lost t _ _ _ L I0 (ri2_ready _ _ _ I)) as [W S].
  rewrite start_sem in S.
  pose proof (loop_facts_all _ _ _ _ L) as LF. pose proof (lf_count _ _ _ LF) as Lc. pose proof (lf_pos _ _ _ LF) as Lp.
  cbn [mp mc ml crest bs_new cslice] in *. unfold window in W. cbn [mc crest bs_new cslice app] in W.
  unfold finish in F. destruct o as [|x|e1|f]; [easy|destruct x; discriminate F| |discriminate F].
  injection F as -> _ -> ->. destruct S as (L1 & e' & R & S1 & k & d & S2 & S3).
  exists L1, e', R. split; [exact S1|]. exists k, d. split; [exact S2|].
  destruct S3 as [S3|(Nb & z & b & S3)]; [now left|right]. split; [exact Nb|].
  destruct W as [x0 W]. rewrite S3, <- !app_assoc in W. cbn [app] in W.
  exists (x0 ++ z), b, (crest (mc m)). split; [now rewrite <- app_assoc|].
  cbn [p_set_state add_count byte_count]. rewrite Lc. f_equal. f_equal.
  assert (Ls := f_equal (@List.length _) W). rewrite !app_length in *. cbn [List.length] in *.
  unfold cindex in Lp at 2. cbn [cmark cslice bs_new List.length] in Lp. unfold byte in *. lia.
Qed.

Lemma resume_lost p s log t p' log' e :
  rinv2 p s t -> (state_fn p = StDetect1 -> s <> []) ->
  resume h p log s = (p', log', RErr e) ->
  exists L e' R, rsem clen p (flat log) (s ++ t) = AFail L e' R /\ missing e L (byte_count p) s p' log'.
Proof.
  intros I N E. assert (T : parser_type p = UrlEncoded \/ parser_type p <> UrlEncoded) by (destruct (parser_type p); auto; right; discriminate).
  destruct T as [T|T].
  - unfold resume in E. rewrite T in E. cbv zeta in E. rewrite cut_eq in E.
    set (n := N.to_nat (plength p)) in *. set (c := firstn n s) in *.
    destruct (parse (fuel_of c) h (Mach p (bs_new c) log)) as [[p0 c0 l0] r0] eqn:P.
    assert (I' : rinv2 p c t) by now apply (url_rinv p s t).
    assert (N1 : state_fn p = StDetect1 -> c <> []).
    { intros X. destruct I as [V _ _]. rewrite X, T in V. discriminate. }
    assert (RS : rsem clen p (flat log) (s ++ t) = usem clen p (flat log) (s ++ t)).
    { unfold rsem. now rewrite T. }
    assert (Hf : firstn n (s ++ t) = c ++ firstn (n - List.length s) t) by apply firstn_app.
    destruct r0 as [[n1|n1|n1]|e1|f|]; try discriminate E.
    + destruct (_ <? _) in E; discriminate E.
    + pose proof (parse_facts_all _ _ _ _ _ _ P) as PF.
      destruct (_ <? _) in E; [discriminate E|]. destruct (_ =? 0) in E; [|discriminate E].
      destruct (parse _ h (with_p _ _)) as [m2 r2] eqn:P2 in E. injection E as <- <- ->.
      exfalso. replace (fuel_of c) with (Datatypes.S (Datatypes.S (fuel_of c - 2))) in P2 by (unfold fuel_of; lia).
      apply body_finish in P2; [|reflexivity|].
      * destruct P2 as (_ & _ & _ & _ & _ & _ & [X|X]); discriminate X.
      * exact (eq_trans (pf_type _ _ _ _ _ PF) T).
    + injection E as <- <- ->. cbn [mp ml].
      destruct (parse_lost _ _ _ t _ _ _ _ I' N1 P) as (L & e' & R & S1 & k & d & S2 & S3).
      exists L, e', ((R ++ firstn (n - List.length s) t) ++ skipn n (s ++ t)). split.
      * rewrite RS. unfold usem. fold n. rewrite Hf, psem_app, S1. reflexivity.
      * exists k, d. split; [exact S2|]. destruct S3 as [S3|(Nb & x & b & y & S3 & S4)]; [now left|right]. split; [exact Nb|].
        exists x, b, (y ++ skipn n s). split; [|exact S4].
        rewrite <- (firstn_skipn n s) at 1. fold c. rewrite S3, <- !app_assoc. reflexivity.
  - assert (E' : (let '(m, r) := parse (fuel_of s) h (Mach p (bs_new s) log) in (mp m, ml m, r)) = (p', log', RErr e)).
    { unfold resume in E. now destruct (parser_type p). }
    destruct (parse (fuel_of s) h (Mach p (bs_new s) log)) as [m r0] eqn:P. destruct m as [p0 c0 l0].
    cbn [mp ml] in E'. injection E' as -> -> ->.
    destruct (parse_lost _ _ _ t _ _ _ _ I N P) as (L & e' & R & S1 & S2).
    exists L, e', (R ++ t). split; [|exact S2].
    unfold rsem. destruct (parser_type p); try congruence; now rewrite psem_app, S1.
Qed.

Lemma client_lost fuel : forall p log segs p' log' rest e,
  rinv2 p (hd [] segs) (List.concat (tl segs)) ->
  (settled p \/ segs <> []) ->
  (state_fn p = StDetect1 -> hd [] segs <> []) -> state p = state_fn p ->
  client fuel h p log segs = (p', log', rest, OError e) ->
  exists L e' R, rsem clen p (flat log) (List.concat segs) = AFail L e' R /\
    loses e L (byte_count p) segs p' log'.
Proof.
  induction fuel as [|fuel IH]; intros p log segs p' log' rest e I Se N St E.
  { destruct segs; discriminate E. }
  destruct segs as [|seg more]; [discriminate E|].
  cbn [client] in E. destruct (resume h p log seg) as [[p1 log1] r] eqn:R.
  cbn [List.concat hd tl] in *.
  destruct (resume_sim h clen Hclen _ _ _ _ _ _ _ I N R) as (S & T & B & St' & Pr).
  destruct r as [[n|n|n]|e1|f|]; try discriminate E.
  - destruct S as (S1 & S2 & S3 & S4).
    destruct (IH p1 log1 (skipn n seg :: more) _ _ _ _ (rinv_rinv2 _ _ _ S3) (or_intror (@not_eq_sym _ _ _ (@nil_cons _ _ _)))
                 (fun X => match S4 X with end) (St' St ltac:(discriminate)) E) as (L & e' & R' & Q1 & k & d & Q2 & Q3).
    cbn [List.concat] in *. exists L, e', R'. rewrite S2. split; [exact Q1|]. exists k, d. split; [exact Q2|].
    destruct Q3 as [Q3|(Nb & bef & x & b & y & aft & Q3 & Q4)]; [now left|right]. split; [exact Nb|].
    destruct (resume_count _ _ _ _ _ _ _ n (ri2_state _ _ _ I) St R (or_intror eq_refl)) as [C|C].
    { destruct (rsem_finished clen p1 (flat log1) (skipn n seg ++ List.concat more) C) as (? & ? & ? & Z). congruence. }
    assert (Ln : List.length (firstn n seg) = n) by (rewrite firstn_length; lia).
    destruct bef as [|s0 bef].
    + injection Q3 as Q3 Q5. exists [], (firstn n seg ++ x), b, y, aft. split.
      * cbn [app]. rewrite <- app_assoc, <- Q3, firstn_skipn. now subst.
      * rewrite Q4, C. cbn [List.concat app]. rewrite !app_length. lia.
    + injection Q3 as Q3 Q5. exists (seg :: bef), x, b, y, aft. split.
      * cbn [app]. now rewrite Q5.
      * rewrite Q4, C. cbn [List.concat app]. rewrite <- Q3. rewrite !app_length, skipn_length. lia.
  - destruct S as (S1 & S2 & S3 & S4 & S5 & S6). subst n.
    destruct (IH p1 log1 more _ _ _ _ (rinv_rinv2 _ _ _ (eq_ind _ _ S3 _ (concat_hd more))) (or_introl (conj S5 S6))
                 (fun X => match S4 X with end) (St' St ltac:(discriminate)) E) as (L & e' & R' & Q1 & k & d & Q2 & Q3).
    exists L, e', R'. rewrite S2. split; [exact Q1|]. exists k, d. split; [exact Q2|].
    destruct Q3 as [Q3|(Nb & bef & x & b & y & aft & Q3 & Q4)]; [now left|right]. split; [exact Nb|].
    destruct (resume_count _ _ _ _ _ _ _ (List.length seg) (ri2_state _ _ _ I) St R (or_introl eq_refl)) as [C|C].
    { rewrite C in S5. discriminate S5. }
    exists (seg :: bef), x, b, y, aft. split; [cbn [app]; now rewrite Q3|].
    rewrite Q4, C. cbn [List.concat]. rewrite !app_length. lia.
  - injection E as <- <- <- <-.
    destruct (resume_lost _ _ _ _ _ _ _ I N R) as (L & e' & R' & Q1 & k & d & Q2 & Q3).
    exists L, e', R'. split; [exact Q1|]. exists k, d. split; [exact Q2|].
    destruct Q3 as [Q3|(Nb & x & b & y & Q3 & Q4)]; [now left|right]. split; [now destruct e1|].
    exists [], x, b, y, more. split; [cbn [app]; now rewrite Q3|]. exact Q4.
Qed.

Lemma feed_lost p segs (rd : list byte -> list fevent * reading) p' log rest e :
  rinv2 p (hd [] segs) (List.concat (tl segs)) -> segs <> [] -> state_fn p <> StDetect1 ->
  state p = state_fn p ->
  (forall s, shows (rsem clen p [] s) (rd s)) ->
  feed h p segs = (p', log, rest, OError e) ->
  loses e (fst (rd (List.concat segs))) (byte_count p) segs p' log.
Proof.
  intros I NE D St Sh F. unfold feed in F.
  destruct (client_lost _ _ _ _ _ _ _ _ I (or_intror NE) (fun X => match D X with end) St F) as (L & e' & R & Q1 & Q2).
  pose proof (Sh (List.concat segs)) as X. unfold shows in X. change (flat []) with (@nil fevent) in Q1.
  rewrite Q1 in X. destruct (snd (rd (List.concat segs))).
  - destruct X as (a & X & _). discriminate X.
  - destruct X as (a & X & _). discriminate X.
  - destruct X as [? X]. injection X as <- _ _. exact Q2.
  - discriminate X.
Qed.
End Lost.

(* Outside multipart bodies the content length is not asked for. *)
Lemma feed_lost_exact h p segs (rd : list byte -> list fevent * reading) p' log rest e :
  parser_type p <> Multipart ->
  rinv2 p (hd [] segs) (List.concat (tl segs)) -> segs <> [] -> state_fn p <> StDetect1 ->
  state p = state_fn p ->
  (forall s, shows (rsem (fun _ => None) p [] s) (rd s)) ->
  feed h p segs = (p', log, rest, OError e) ->
  loses e (fst (rd (List.concat segs))) (byte_count p) segs p' log.
Proof.
  intros T I NE D St Sh F.
  unfold feed in F. rewrite (client_no_clen h) in F by (exact (ri2_state _ _ _ I) || exact T).
  exact (feed_lost (no_clen h) (fun _ => None) (fun _ => eq_refl) p segs rd p' log rest e I NE D St Sh F).
Qed.

Lemma head_lost h q segs p' log rest e : segs <> [] ->
  hok (strip (List.concat segs)) = true \/ (9 <= List.length (strip (hd [] segs)))%nat ->
  feed h (init_head q) segs = (p', log, rest, OError e) ->
  loses e (fst (read_head (List.concat segs))) (byte_count q) segs p' log.
Proof.
  intros NE Hh. apply (feed_lost_exact h (init_head q)); try reflexivity; try assumption; try discriminate.
  - constructor; try reflexivity; try discriminate.
    destruct Hh as [Hh|Hh]; [left|right; left; split; [reflexivity|assumption]].
    rewrite <- concat_hd. exact Hh.
  - intros s. exact (reads_message None (fun _ => None) s).
Qed.

Lemma chunked_lost h q segs p' log rest e : segs <> [] ->
  feed h (init_chunked q) segs = (p', log, rest, OError e) ->
  loses e (fst (read_chunked (List.concat segs))) (byte_count q) segs p' log.
Proof.
  intros NE. apply (feed_lost_exact h (init_chunked q)); try reflexivity; try assumption; try discriminate.
  - constructor; try reflexivity; try discriminate. left; reflexivity.
  - intros s. exact (reads_chunked None (fun _ => None) _ [] s (le_n _)).
Qed.

Lemma url_lost h q n segs p' log rest e : segs <> [] ->
  feed h (set_length (init_url_encoded q) n) segs = (p', log, rest, OError e) ->
  loses e (fst (read_url_encoded n (List.concat segs))) (byte_count q) segs p' log.
Proof.
  intros NE. apply (feed_lost_exact h (set_length (init_url_encoded q) n)); try reflexivity; try assumption; try discriminate.
  - constructor; try reflexivity; try discriminate. left; reflexivity.
  - intros s. apply url_shows.
Qed.

Lemma multipart_lost h clen q (bd : list byte) segs p' log rest e : segs <> [] ->
  (forall l, h_clen h l = clen (flat l)) ->
  ~ In 13 bd -> N.of_nat (List.length bd) <= 2 ^ 14 ->
  feed h (set_boundary (init_multipart q) bd) segs = (p', log, rest, OError e) ->
  loses e (fst (read_multipart bd clen (List.concat segs))) (byte_count q) segs p' log.
Proof.
  intros NE Hc C Len F.
  apply (feed_lost h clen Hc (set_boundary (init_multipart q) bd) segs (read_multipart bd clen) p' log rest e);
    try reflexivity; try assumption; try discriminate.
  - constructor; try reflexivity; try discriminate; [left; reflexivity|]. intros _. now split.
  - intros s. exact (reads_multipart bd clen _ [] s (le_n _)).
Qed.

(* Fed byte by byte nothing is lost. *)
Lemma bytewise_concat s : List.concat (bytewise s) = s.
Proof. induction s as [|b s IH]; [reflexivity|]. cbn. now f_equal. Qed.

Lemma bytewise_loses e L n s p' log : loses e L n (bytewise s) p' log -> flat log = L.
Proof.
  intros (k & d & -> & [->|(_ & bef & x & b & y & aft & E & _)]); [now rewrite app_nil_r|].
  assert (I : In (x ++ d ++ b :: y) (bytewise s)) by (rewrite E; apply in_or_app; right; now left).
  apply in_map_iff in I. destruct I as (c & I & _). apply (f_equal (@List.length _)) in I.
  rewrite !app_length in I. cbn [List.length] in I.
  destruct d; [now rewrite app_nil_r|cbn [List.length] in I; lia].
Qed.

Lemma bytewise_none h p log rest e s p' : feed h p (bytewise s) = (p', log, rest, OError e) -> bytewise s <> [].
Proof. intros F E. rewrite E in F. discriminate F. Qed.

Lemma head_bytewise h q s p' log rest e : hok (strip s) = true ->
  feed h (init_head q) (bytewise s) = (p', log, rest, OError e) -> flat log = fst (read_head s).
Proof.
  intros Hh F. pose proof (bytewise_none _ _ _ _ _ _ _ F) as NE.
  rewrite <- (bytewise_concat s) in Hh.
  pose proof (head_lost _ _ _ _ _ _ _ NE (or_introl Hh) F) as X.
  rewrite bytewise_concat in X. exact (bytewise_loses _ _ _ _ _ _ X).
Qed.

Lemma chunked_bytewise h q s p' log rest e :
  feed h (init_chunked q) (bytewise s) = (p', log, rest, OError e) -> flat log = fst (read_chunked s).
Proof.
  intros F. pose proof (chunked_lost _ _ _ _ _ _ _ (bytewise_none _ _ _ _ _ _ _ F) F) as X.
  rewrite bytewise_concat in X. exact (bytewise_loses _ _ _ _ _ _ X).
Qed.

Lemma url_bytewise h q n s p' log rest e :
  feed h (set_length (init_url_encoded q) n) (bytewise s) = (p', log, rest, OError e) ->
  flat log = fst (read_url_encoded n s).
Proof.
  intros F. pose proof (url_lost _ _ _ _ _ _ _ _ (bytewise_none _ _ _ _ _ _ _ F) F) as X.
  rewrite bytewise_concat in X. exact (bytewise_loses _ _ _ _ _ _ X).
Qed.

Lemma multipart_bytewise h clen q (bd : list byte) s p' log rest e :
  (forall l, h_clen h l = clen (flat l)) ->
  ~ In 13 bd -> N.of_nat (List.length bd) <= 2 ^ 14 ->
  feed h (set_boundary (init_multipart q) bd) (bytewise s) = (p', log, rest, OError e) ->
  flat log = fst (read_multipart bd clen s).
Proof.
  intros Hc C Len F.
  pose proof (multipart_lost h clen q bd _ _ _ _ _ (bytewise_none _ _ _ _ _ _ _ F) Hc C Len F) as X.
  rewrite bytewise_concat in X. exact (bytewise_loses _ _ _ _ _ _ X).
Qed.
