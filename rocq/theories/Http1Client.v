(* The client loop of Http1Spec.v: it ends, and what it reports is determined
   by the stream, not by its pieces nor by the pausing. *)

From Coq Require Import NArith List Bool Arith String Lia.
From Verif Require Import Bytes ByteStream Http1Model Http1Base Http1Wp Http1Term Http1Spec Http1Sem Http1Sim
     Http1Step Http1Misc Http1Run.
Import ListNotations.
Local Open Scope N_scope.

(* ------------------------------------------------------------------ *)
(* Facts about one call that hold for every handler                      *)
(* ------------------------------------------------------------------ *)

Lemma loop_vstate h m m' o : loop h m m' o ->
  vstate (parser_type (mp m)) (state_fn (mp m)) = true ->
  vstate (parser_type (mp m')) (state_fn (mp m')) = true.
Proof.
  intros L. induction L as [m m' o R N|m m1 m' o R L IH]; intros V.
  - apply (wp_run _ _ (run_fn_vstate h m V) _ _ R).
  - apply IH. apply (wp_run _ _ (run_fn_vstate h m V) _ _ R).
Qed.

Lemma loop_length h m m' o : loop h m m' o ->
  vstate (parser_type (mp m)) (state_fn (mp m)) = true ->
  parser_type (mp m) = UrlEncoded -> plength (mp m') = plength (mp m).
Proof.
  intros L. induction L as [m m' o R N|m m1 m' o R L IH]; intros V T;
    pose proof (wp_run _ _ (run_fn_misc h m) _ _ R) as M.
  - apply (mi_len _ _ _ M T). now rewrite <- T.
  - rewrite IH.
    + apply (mi_len _ _ _ M T). now rewrite <- T.
    + apply (wp_run _ _ (run_fn_vstate h m V) _ _ R).
    + now rewrite (mi_type _ _ _ M).
Qed.

(* Consumption and bookkeeping of the loop started by resume. *)
Record parse_facts (p : parser) (s : list byte) (log : list event) (m : mach) (r : result) : Prop := {
  pf_type : parser_type (mp m) = parser_type p;
  pf_bd : boundary (mp m) = boundary p;
  pf_log : pre log (ml m);
  pf_suf : suf s (crest (mc m));
  pf_pos : (cindex (mc m) + List.length (crest (mc m)) = List.length s)%nat;
  pf_fuel : r <> RFuel;
  pf_vstate : vstate (parser_type p) (state_fn p) = true ->
              vstate (parser_type (mp m)) (state_fn (mp m)) = true;
  pf_length : vstate (parser_type p) (state_fn p) = true -> parser_type p = UrlEncoded ->
              plength (mp m) = plength p;
  pf_count : (forall f, r <> RFault f) ->
     byte_count (mp m) = byte_count p + N.of_nat (cindex (mc m));
  pf_eos : forall n, r = ROk (SEos n) -> n = List.length s /\ n = cindex (mc m);
  pf_cb : forall n, r = ROk (SCallback n) -> (n <= List.length s)%nat /\ n = cindex (mc m) /\
     (measure (state_fn (mp m)) (skipn n s) < measure (state_fn p) s)%nat;
  pf_fin : forall n, r = ROk (SFinished n) -> (n <= List.length s)%nat /\ n = cindex (mc m) /\
     state_fn (mp m) = StFinished /\ state (mp m) = StFinished;
  pf_err : forall e, r = RErr e -> state_fn (mp m) = StDead /\ state (mp m) = StDead;
  pf_state : state p = state_fn p -> (forall f, r <> RFault f) -> state (mp m) = state_fn (mp m)
}.

Lemma parse_facts_all h p s log m r :
  parse (fuel_of s) h (Mach p (bs_new s) log) = (m, r) -> parse_facts p s log m r.
Proof.
  intros E. destruct (parse_start h _ _ _ _ _ E) as (m0 & o & L & F).
  pose proof (loop_facts_all h _ _ _ L) as [L1 L2 L3 L4 L5 L6 L7 L8 L9 L10].
  pose proof (loop_vstate _ _ _ _ L) as V. pose proof (loop_length _ _ _ _ L) as Le.
  cbn [mp mc ml bs_new crest cslice] in *.
  unfold cindex in L6 at 2. cbn [cmark cslice List.length] in L6. rewrite Nat.add_0_l in L6.
  pose proof (parse_fuel_of h (Mach p (bs_new s) log) s (le_n _)) as NF. rewrite E in NF. cbn [snd] in NF.
  destruct o as [|[n|n|n]|e|f]; injection F as -> ->;
    unfold with_p in *; cbn [mp mc ml] in *;
    constructor; cbn [mp mc ml add_count with_state_only p_set_state parser_type boundary byte_count plength state state_fn];
    auto; try (intros; discriminate); try congruence;
    try (intros; subst; now rewrite L2);
    try (now intros _; rewrite L2).
  - intros n1 [= <-]. destruct (L9 n eq_refl) as [-> L9'].
    assert (Sk : crest (mc m0) = skipn (cindex (mc m0)) s) by (apply suf_skip; [assumption|lia]).
    repeat split; [lia|]. rewrite <- Sk. now apply L9'.
  - intros n1 [= <-]. destruct (L8 n eq_refl) as (_ & L8' & ->). rewrite L8' in L6. cbn [List.length] in L6. lia.
  - intros n1 [= <-]. destruct (L10 n eq_refl) as (-> & L10'). repeat split; [lia|assumption].
  - now destruct (L10 n eq_refl) as (_ & L10').
Qed.

(* Potential of a parser and a segment: bounds the number of resume calls a
   client needs for this segment. *)
Definition pot (p : parser) (s : list byte) : nat :=
  match state_fn p with
  | StFinished => 1
  | _ => S (S (measure (state_fn p) (visible p s)))
  end.

Lemma pot_le p s : (pot p s <= 8 * List.length s + 8)%nat.
Proof.
  unfold pot, measure, visible.
  assert (L : (List.length (match parser_type p with UrlEncoded => firstn (N.to_nat (plength p)) s | _ => s end)
             <= List.length s)%nat).
  { destruct (parser_type p); try lia. rewrite firstn_length. lia. }
  pose proof (rank_le (state_fn p) (match parser_type p with UrlEncoded => firstn (N.to_nat (plength p)) s | _ => s end)).
  destruct (state_fn p); lia.
Qed.

Lemma pot_measure p s : state_fn p <> StFinished -> pot p s = S (S (measure (state_fn p) (visible p s))).
Proof. intros N. unfold pot. destruct (state_fn p); congruence. Qed.

(* A finished parser. *)
Lemma resume_finished h p log s : state_fn p = StFinished ->
  resume h p log s = (with_state_only (add_count p 0) StFinished, log, ROk (SFinished 0)).
Proof.
  intros F. unfold resume.
  assert (P : forall x, parse (fuel_of x) h (Mach p (bs_new x) log) =
    (Mach (with_state_only (add_count p 0) StFinished) (bs_new x) log, ROk (SFinished 0))).
  { intros x. unfold fuel_of. replace (8 * List.length x + 16)%nat with (S (8 * List.length x + 15)) by lia.
    cbn [parse]. unfold run_fn. cbn [mp]. rewrite F. reflexivity. }
  destruct (parser_type p); now rewrite P.
Qed.

Lemma resume_dead h p log s : state_fn p = StDead ->
  resume h p log s = (p_set_state (add_count p 0) StDead, log, RErr ErDead).
Proof.
  intros F. unfold resume.
  assert (P : forall x, parse (fuel_of x) h (Mach p (bs_new x) log) =
    (Mach (p_set_state (add_count p 0) StDead) (bs_new x) log, RErr ErDead)).
  { intros x. unfold fuel_of. replace (8 * List.length x + 16)%nat with (S (8 * List.length x + 15)) by lia.
    cbn [parse]. unfold run_fn. cbn [mp]. rewrite F. reflexivity. }
  destruct (parser_type p); now rewrite P.
Qed.

Record resume_facts (p : parser) (s : list byte) (log : list event)
       (p' : parser) (log' : list event) (r : result) : Prop := {
  rf_type : parser_type p' = parser_type p;
  rf_bd : boundary p' = boundary p;
  rf_log : pre log log';
  rf_fuel : r <> RFuel;
  rf_vstate : vstate (parser_type p') (state_fn p') = true;
  rf_count : parser_type p <> UrlEncoded ->
     match r with
     | ROk (SEos n) | ROk (SCallback n) | ROk (SFinished n) => byte_count p' = byte_count p + N.of_nat n
     | RErr _ => exists n, (n <= List.length s)%nat /\ byte_count p' = byte_count p + N.of_nat n
     | _ => True
     end;
  rf_eos : forall n, r = ROk (SEos n) -> n = List.length s /\ n = List.length (visible p s) /\
     (parser_type p = UrlEncoded -> plength p' = plength p - N.of_nat n /\ N.of_nat n < plength p);
  rf_cb : forall n, r = ROk (SCallback n) -> (n <= List.length (visible p s))%nat /\
     (pot p' (skipn n s) < pot p s)%nat;
  rf_fin : forall n, r = ROk (SFinished n) -> (n <= List.length (visible p s))%nat /\
     state_fn p' = StFinished /\ state p' = StFinished;
  rf_err : forall e, r = RErr e -> state_fn p' = StDead /\ state p' = StDead;
  rf_state : state p = state_fn p -> (forall f, r <> RFault f) -> state p' = state_fn p'
}.

Lemma visible_le p s : (List.length (visible p s) <= List.length s)%nat.
Proof. unfold visible. destruct (parser_type p); try lia. rewrite firstn_length. lia. Qed.

Lemma resume_facts_plain h p log s p' log' r :
  parser_type p <> UrlEncoded ->
  vstate (parser_type p) (state_fn p) = true ->
  resume h p log s = (p', log', r) -> resume_facts p s log p' log' r.
Proof.
  intros T V E.
  assert (E' : (let '(m, r) := parse (fuel_of s) h (Mach p (bs_new s) log) in (mp m, ml m, r)) = (p', log', r)).
  { unfold resume in E. now destruct (parser_type p). }
  destruct (parse (fuel_of s) h (Mach p (bs_new s) log)) as [m r0] eqn:P.
  injection E' as <- <- <-. destruct (parse_facts_all _ _ _ _ _ _ P).
  assert (Vi : forall q x, parser_type q = parser_type p -> visible q x = x).
  { intros q x Q. unfold visible. rewrite Q. now destruct (parser_type p). }
  constructor; auto.
  - intros _. destruct r0 as [[n|n|n]|e|f|]; auto.
    + rewrite pf_count0 by discriminate. now destruct (pf_cb0 n eq_refl) as (_ & -> & _).
    + rewrite pf_count0 by discriminate. now destruct (pf_eos0 n eq_refl) as (_ & ->).
    + rewrite pf_count0 by discriminate. now destruct (pf_fin0 n eq_refl) as (_ & -> & _).
    + exists (cindex (mc m)). split; [lia|]. apply pf_count0. discriminate.
  - intros n ->. rewrite Vi by reflexivity. destruct (pf_eos0 n eq_refl). repeat split; auto; congruence.
  - intros n ->. rewrite Vi by reflexivity. destruct (pf_cb0 n eq_refl) as (A1 & A2 & A3). split; [assumption|].
    rewrite (pot_measure p).
    + rewrite Vi by reflexivity. unfold pot. rewrite Vi by assumption. destruct (state_fn (mp m)); lia.
    + intros F. rewrite (resume_finished h p log s F) in E. discriminate E.
  - intros n ->. rewrite Vi by reflexivity. now destruct (pf_fin0 n eq_refl) as (A1 & A2 & A3 & A4).
Qed.

Lemma resume_facts_url h p log s p' log' r :
  parser_type p = UrlEncoded ->
  vstate (parser_type p) (state_fn p) = true ->
  resume h p log s = (p', log', r) -> resume_facts p s log p' log' r.
Proof.
  intros T V E. pose proof E as E0. unfold resume in E. rewrite T in E. cbv zeta in E. rewrite cut_eq in E.
  assert (Vp : visible p s = firstn (N.to_nat (plength p)) s) by (unfold visible; now rewrite T).
  set (n := N.to_nat (plength p)) in *. set (c := firstn n s) in *.
  destruct (parse (fuel_of c) h (Mach p (bs_new c) log)) as [m r0] eqn:P.
  destruct (parse_facts_all _ _ _ _ _ _ P).
  specialize (pf_vstate0 V). specialize (pf_length0 V T).
  assert (Hc : List.length c = Nat.min n (List.length s)) by apply firstn_length.
  assert (LE : plength (mp m) = N.of_nat n) by (subst n; lia).
  destruct r0 as [[n1|n1|n1]|e|f|]; try congruence.
  - destruct (pf_cb0 n1 eq_refl) as (A1 & A2 & A3).
    destruct (N.ltb_spec (plength (mp m)) (N.of_nat n1)) as [X|X]; [exfalso; lia|].
    injection E as <- <- <-.
    constructor; cbn [with_length parser_type boundary state_fn state byte_count]; auto; try congruence; try (intros; discriminate).
    intros n2 [= <-]. rewrite Vp. split; [assumption|].
    rewrite (pot_measure p).
    + rewrite Vp. unfold pot. cbn [with_length state_fn]. unfold visible. cbn [with_length parser_type plength].
      rewrite pf_type0, T.
      replace (firstn (N.to_nat (plength (mp m) - N.of_nat n1)) (skipn n1 s)) with (skipn n1 c).
      * destruct (state_fn (mp m)); lia.
      * unfold c. rewrite skipn_firstn_comm. f_equal. lia.
    + intros F. rewrite (resume_finished h p log s F) in E0. discriminate E0.
  - destruct (pf_eos0 n1 eq_refl) as (A1 & A2).
    destruct (N.ltb_spec (plength (mp m)) (N.of_nat n1)) as [X|X]; [exfalso; lia|].
    destruct (N.eqb_spec (plength (mp m) - N.of_nat n1) 0) as [Z|Z].
    + destruct (parse _ h (with_p _ _)) as [m2 r2] eqn:P2 in E. injection E as <- <- <-.
      replace (fuel_of c) with (Datatypes.S (Datatypes.S (fuel_of c - 2))) in P2 by (unfold fuel_of; lia).
      apply body_finish in P2; [|reflexivity|now cbn [with_p mp p_set_state parser_type]; congruence].
      cbn [with_p mp mc ml p_set_state boundary plength] in P2.
      destruct P2 as (Q1 & Q2 & Q3 & Q4 & Q5 & Q6 & Q7).
      assert (NF : state_fn p <> StFinished).
      { intros F. unfold fuel_of in P.
        replace (8 * List.length c + 16)%nat with (Datatypes.S (8 * List.length c + 15)) in P by lia.
        cbn [parse] in P. unfold run_fn in P. cbn [mp] in P. rewrite F in P. discriminate P. }
      rewrite <- A2 in Q7.
      constructor; try congruence.
      * rewrite Q1. eapply pre_trans; [exact pf_log0|apply pre_app].
      * destruct Q7; congruence.
      * now rewrite Q4, Q2.
      * destruct Q7; intros; congruence.
      * intros n2 X2. destruct Q7 as [-> | ->]; [discriminate|]. injection X2 as <-. rewrite Vp. split; [lia|].
        unfold pot at 1. rewrite Q2. rewrite pot_measure by assumption. lia.
      * intros n2 X2. destruct Q7 as [-> | ->]; [|discriminate]. injection X2 as <-. rewrite Vp. split; [lia|]. auto.
      * destruct Q7; intros; congruence.
    + injection E as <- <- <-.
      constructor; cbn [with_length parser_type boundary state_fn state byte_count plength]; auto; try congruence; try (intros; discriminate).
      intros n2 [= <-]. rewrite Vp. fold c. repeat split; try lia.
  - injection E as <- <- <-. constructor; auto; try congruence; try (intros; discriminate).
    intros n2 [= <-]. destruct (pf_fin0 n1 eq_refl) as (A1 & A2 & A3 & A4). rewrite Vp. auto.
  - injection E as <- <- <-. constructor; auto; try congruence; try (intros; discriminate).
  - injection E as <- <- <-. constructor; auto; try congruence; try (intros; discriminate).
Qed.

Lemma resume_facts_all h p log s p' log' r :
  vstate (parser_type p) (state_fn p) = true ->
  resume h p log s = (p', log', r) -> resume_facts p s log p' log' r.
Proof.
  intros V E. destruct (parser_type p) eqn:T.
  1-3: apply (resume_facts_plain h); congruence.
  apply (resume_facts_url h); congruence.
Qed.

Lemma reachable_vstate p : reachable p -> vstate (parser_type p) (state_fn p) = true.
Proof.
  induction 1; try reflexivity; try assumption.
  - unfold reset. cbn [parser_type]. destruct (parser_type p) eqn:T; cbn; now rewrite ?T.
  - apply (rf_vstate _ _ _ _ _ _ (resume_facts_all _ _ _ _ _ _ _ IHreachable H0)).
Qed.

(* ------------------------------------------------------------------ *)
(* The client loop ends                                                 *)
(* ------------------------------------------------------------------ *)

Definition need (p : parser) (segs : list (list byte)) : nat :=
  match segs with [] => 0 | seg :: more => pot p seg + calls more end.

Lemma need_calls p segs : (need p segs <= calls segs)%nat.
Proof. destruct segs; cbn [need calls]; [lia|]. pose proof (pot_le p l). lia. Qed.

Lemma client_ends h fuel : forall p log segs,
  vstate (parser_type p) (state_fn p) = true -> (need p segs <= fuel)%nat ->
  snd (client fuel h p log segs) <> OFuel.
Proof.
  induction fuel as [|fuel IH]; intros p log segs V N.
  - destruct segs as [|seg more]; [discriminate|]. cbn [need] in N.
    unfold pot in N. destruct (state_fn p); lia.
  - destruct segs as [|seg more]; [discriminate|]. cbn [client].
    destruct (resume h p log seg) as [[p' log'] r] eqn:E.
    destruct (resume_facts_all _ _ _ _ _ _ _ V E).
    destruct r as [[n|n|n]|e|f|]; try discriminate; try congruence.
    + apply IH; [assumption|]. destruct (rf_cb0 n eq_refl). cbn [need] in *. lia.
    + apply IH; [assumption|]. pose proof (need_calls p' more). cbn [need] in *.
      unfold pot in N. destruct (state_fn p); lia.
Qed.

Lemma feed_ends h p segs : vstate (parser_type p) (state_fn p) = true ->
  snd (feed h p segs) <> OFuel.
Proof. intros V. apply client_ends; [assumption|apply need_calls]. Qed.

(* ------------------------------------------------------------------ *)
(* The client loop agrees with the automaton                            *)
(* ------------------------------------------------------------------ *)

(* Nothing happens without further input. *)
Definition settled (p : parser) : Prop :=
  needs_byte (state_fn p) = true /\ (parser_type p = UrlEncoded -> plength p <> 0).

Lemma settled_sem clen p l : settled p -> rsem clen p l [] = ADone l (alpha p) [].
Proof.
  intros [N L]. unfold rsem. destruct (parser_type p) eqn:T; try now apply psem_needs.
  unfold usem. rewrite firstn_nil, psem_needs by assumption. rewrite alpha_st.
  specialize (L eq_refl). cbn [List.length].
  destruct (Nat.leb_spec (N.to_nat (plength p)) 0); [lia|].
  destruct (state_fn p); try reflexivity; discriminate.
Qed.

Definition client_post (clen : list fevent -> option N) (p : parser) (log : list event) (S : list byte)
           (p' : parser) (log' : list event) (rest : list byte) (o : ending) : Prop :=
  match o with
  | OEos => rsem clen p (flat log) S = ADone (flat log') (alpha p') [] /\ rest = [] /\ settled p'
  | OFinished => rsem clen p (flat log) S = ADone (flat log') (alpha p') rest /\ state_fn p' = StFinished
  | OError e => exists L e' R, rsem clen p (flat log) S = AFail L e' R /\ same_kind e e' /\ nearly (flat log') L
  | OFault f => exists L, rsem clen p (flat log) S = AFlt L /\ nearly (flat log') L
  | OFuel => True
  end.

Lemma concat_hd (segs : list (list byte)) : List.concat segs = hd [] segs ++ List.concat (tl segs).
Proof. now destruct segs. Qed.

Lemma client_sim h clen (Hclen : forall l, h_clen h l = clen (flat l)) fuel :
  forall p log segs p' log' rest o,
  rinv2 p (hd [] segs) (List.concat (tl segs)) ->
  (settled p \/ segs <> []) ->
  (state_fn p = StDetect1 -> hd [] segs <> []) ->
  client fuel h p log segs = (p', log', rest, o) ->
  client_post clen p log (List.concat segs) p' log' rest o /\
  (state p = state_fn p -> match o with OFuel | OFault _ => True | _ => state p' = state_fn p' end).
Proof.
  induction fuel as [|fuel IH]; intros p log segs p' log' rest o I Se N E.
  - destruct segs as [|seg more].
    + injection E as <- <- <- <-. cbn [List.concat client_post]. destruct Se as [Se|Se]; [|congruence].
      split; auto. repeat split; try apply Se. now apply settled_sem.
    + injection E as <- <- <- <-. split; exact Logic.I || auto.
  - destruct segs as [|seg more].
    + injection E as <- <- <- <-. cbn [List.concat client_post]. destruct Se as [Se|Se]; [|congruence].
      split; auto. repeat split; try apply Se. now apply settled_sem.
    + cbn [client] in E. destruct (resume h p log seg) as [[p1 log1] r] eqn:R.
      cbn [List.concat hd tl] in *.
      destruct (resume_sim h clen Hclen _ _ _ _ _ _ _ I N R) as (S & T & B & St & Pr).
      destruct r as [[n|n|n]|e|f|].
      * destruct S as (S1 & S2 & S3 & S4).
        destruct (IH p1 log1 (skipn n seg :: more) _ _ _ _ (rinv_rinv2 _ _ _ S3) (or_intror (@not_eq_sym _ _ _ (@nil_cons _ _ _)))
                     (fun X => match S4 X with end) E) as [C1 C2].
        cbn [List.concat] in C1. split.
        { unfold client_post in *. rewrite S2. exact C1. }
        { intros X. apply C2. apply St; [assumption|discriminate]. }
      * destruct S as (S1 & S2 & S3 & S4 & S5 & S6).
        destruct (IH p1 log1 more _ _ _ _ (rinv_rinv2 _ _ _ (eq_ind _ _ S3 _ (concat_hd more))) (or_introl (conj S5 S6)) (fun X => match S4 X with end) E) as [C1 C2].
        split.
        { unfold client_post in *. rewrite S2. exact C1. }
        { intros X. apply C2. apply St; [assumption|discriminate]. }
      * destruct S as (S1 & S2 & S3). injection E as <- <- <- <-. split; [now split|].
        intros X. apply St; [assumption|discriminate].
      * injection E as <- <- <- <-. split; [destruct S as (x & e' & R' & S1 & S2 & S3 & _); now exists x, e', R'|].
        intros X. apply St; [assumption|discriminate].
      * injection E as <- <- <- <-. split; [exact S|]. auto.
      * contradiction.
Qed.

Lemma same_kind_trans e1 e2 e : same_kind e1 e -> same_kind e2 e -> same_kind e1 e2.
Proof. destruct e1, e2, e; cbn; intros H1 H2; try exact I; congruence. Qed.

Lemma client_dead h fuel : forall p log segs p' log' rest e,
  vstate (parser_type p) (state_fn p) = true ->
  client fuel h p log segs = (p', log', rest, OError e) -> state p' = StDead.
Proof.
  induction fuel as [|fuel IH]; intros p log segs p' log' rest e V E.
  - destruct segs; discriminate E.
  - destruct segs as [|seg more]; [discriminate E|]. cbn [client] in E.
    destruct (resume h p log seg) as [[p1 log1] r] eqn:R.
    destruct (resume_facts_all _ _ _ _ _ _ _ V R).
    destruct r as [[n|n|n]|e1|f|]; try discriminate E; try (now apply IH in E).
    injection E as <- <- <- <-. now destruct (rf_err0 e1 eq_refl).
Qed.


(* Outside multipart parsing the MultipartBoundary error does not occur. *)
Definition no_mb (e : perror) : Prop := match e with ErMultipartBoundary _ => False | _ => True end.

Lemma loop_no_mb h m m' o : loop h m m' o ->
  vstate (parser_type (mp m)) (state_fn (mp m)) = true -> parser_type (mp m) <> Multipart ->
  match o with Fail e => no_mb e | _ => True end.
Proof.
  intros L. induction L as [m m' o R N|m m1 m' o R L IH]; intros V T;
    pose proof (wp_run _ _ (run_fn_vstate h m V) _ _ R) as [V' E].
  - destruct o; auto. destruct e; try exact I. congruence.
  - apply IH; auto. pose proof (wp_run _ _ (run_fn_misc h m) _ _ R) as M. now rewrite (mi_type _ _ _ M).
Qed.

Lemma parse_no_mb h p s log m r :
  parse (fuel_of s) h (Mach p (bs_new s) log) = (m, r) ->
  vstate (parser_type p) (state_fn p) = true -> parser_type p <> Multipart ->
  match r with RErr e => no_mb e | _ => True end.
Proof.
  intros E V T. destruct (parse_start h _ _ _ _ _ E) as (m0 & o & L & F).
  pose proof (loop_no_mb _ _ _ _ L V T) as X.
  destruct o as [|[n|n|n]|e|f]; injection F as -> ->; auto.
Qed.

Lemma resume_no_mb h p s log p' log' e :
  vstate (parser_type p) (state_fn p) = true -> parser_type p <> Multipart ->
  resume h p log s = (p', log', RErr e) -> no_mb e.
Proof.
  intros V T E. unfold resume in E. destruct (parser_type p) eqn:Tp; try congruence.
  1,2: destruct (parse _ h _) as [m r] eqn:P in E; injection E as _ _ ->;
       exact (parse_no_mb _ _ _ _ _ _ P (eq_ind_r (fun t => vstate t _ = true) V Tp) (eq_ind_r (fun t => t <> Multipart) T Tp)).
  cbv zeta in E. rewrite cut_eq in E.
  destruct (parse (fuel_of (firstn (N.to_nat (plength p)) s)) h (Mach p (bs_new (firstn (N.to_nat (plength p)) s)) log)) as [m r] eqn:P.
  destruct r as [[n|n|n]|e1|f|]; try discriminate E.
  - destruct (_ <? _); discriminate E.
  - pose proof (parse_facts_all _ _ _ _ _ _ P) as PF.
    destruct (_ <? _); [discriminate E|]. destruct (_ =? 0); [|discriminate E].
    destruct (parse _ h (with_p _ _)) as [m2 r2] eqn:P2 in E. injection E as <- <- ->.
    exfalso. unfold fuel_of in P2.
    replace (8 * List.length (firstn (N.to_nat (plength p)) s) + 16)%nat with (S (S (8 * List.length (firstn (N.to_nat (plength p)) s) + 14))) in P2 by lia.
    apply body_finish in P2; [|reflexivity|].
    + destruct P2 as (_ & _ & _ & _ & _ & _ & [X|X]); discriminate X.
    + exact (eq_trans (pf_type _ _ _ _ _ PF) Tp).
  - injection E as _ _ ->.
    exact (parse_no_mb _ _ _ _ _ _ P (eq_ind_r (fun t => vstate t _ = true) V Tp) (eq_ind_r (fun t => t <> Multipart) T Tp)).
Qed.

Lemma client_error h fuel : forall p log segs p' log' rest e,
  vstate (parser_type p) (state_fn p) = true -> parser_type p <> Multipart ->
  client fuel h p log segs = (p', log', rest, OError e) -> no_mb e.
Proof.
  induction fuel as [|fuel IH]; intros p log segs p' log' rest e V T E.
  - destruct segs; discriminate E.
  - destruct segs as [|seg more]; [discriminate E|]. cbn [client] in E.
    destruct (resume h p log seg) as [[p1 log1] r] eqn:R.
    destruct (resume_facts_all _ _ _ _ _ _ _ V R).
    destruct r as [[n|n|n]|e1|f|]; try discriminate E;
      try (apply IH in E; [assumption|assumption|congruence]).
    injection E as <- <- <- <-. now apply resume_no_mb in R.
Qed.

Lemma alike_weaken (R1 R2 : perror -> perror -> Prop) r1 r2 :
  (forall e1 e2, snd r1 = OError e1 -> snd r2 = OError e2 -> R1 e1 e2 -> R2 e1 e2) ->
  alike R1 r1 r2 -> alike R2 r1 r2.
Proof.
  destruct r1 as [[[p1 l1] rest1] o1], r2 as [[[p2 l2] rest2] o2]. cbn [snd].
  unfold alike. intros H A. destruct o1, o2; auto. destruct A as (A1 & A2 & A3). auto.
Qed.

Lemma feed_alike2 h1 h2 clen p q segs1 segs2 :
  (forall l, h_clen h1 l = clen (flat l)) -> (forall l, h_clen h2 l = clen (flat l)) ->
  rinv2 p (hd [] segs1) (List.concat (tl segs1)) ->
  rinv2 q (hd [] segs2) (List.concat (tl segs2)) ->
  state p = state_fn p -> (state_fn p = StDetect1 -> hd [] segs1 <> []) ->
  state q = state_fn q -> (state_fn q = StDetect1 -> hd [] segs2 <> []) ->
  segs1 <> [] -> segs2 <> [] ->
  rsem clen p [] (List.concat segs1) = rsem clen q [] (List.concat segs2) ->
  alike same_kind (feed h1 p segs1) (feed h2 q segs2).
Proof.
  intros C1 C2 I I2 St Nd St' Nd' N1 N2 E.
  destruct (feed h1 p segs1) as [[[p1 l1] rest1] o1] eqn:F1.
  destruct (feed h2 q segs2) as [[[p2 l2] rest2] o2] eqn:F2.
  pose proof (feed_ends h1 p segs1 (ri2_state _ _ _ I)) as E1. rewrite F1 in E1.
  pose proof (feed_ends h2 q segs2 (ri2_state _ _ _ I2)) as E2. rewrite F2 in E2. cbn [snd] in E1, E2.
  destruct (client_sim h1 clen C1 _ _ _ _ _ _ _ _ I (or_intror N1) Nd F1) as [P1 S1].
  destruct (client_sim h2 clen C2 _ _ _ _ _ _ _ _ I2 (or_intror N2) Nd' F2) as [P2 S2].
  specialize (S1 St). specialize (S2 St').
  unfold client_post in P1, P2. cbn [flat flat_map] in P1, P2. rewrite <- E in P2.
  assert (AS : forall q1 q2, alpha q1 = alpha q2 -> state_fn q1 = state_fn q2).
  { intros q1 q2 X. rewrite <- !alpha_st. now rewrite X. }
  unfold alike. destruct o1, o2; try congruence.
  all: try (destruct P1 as (P1 & P1' & [P1'' _]); destruct P2 as (P2 & P2' & [P2'' _]); rewrite P1 in P2;
            injection P2 as A1 A2; repeat split; try congruence; rewrite S1, S2; now apply AS).
  all: try (destruct P1 as (P1 & P1' & [P1'' _]); destruct P2 as (P2 & P2'); rewrite P1 in P2;
            injection P2 as A1 A2; apply AS in A2; rewrite A2, P2' in P1''; discriminate).
  all: try (destruct P2 as (P2 & P2' & [P2'' _]); destruct P1 as (P1 & P1'); rewrite P1 in P2;
            injection P2 as A1 A2; apply AS in A2; rewrite <- A2, P1' in P2''; discriminate).
  all: try (destruct P1 as (P1 & P1'); destruct P2 as (P2 & P2'); rewrite P1 in P2;
            injection P2 as A1 A2 A3; repeat split; try congruence; rewrite S1, S2; now apply AS).
  all: try (destruct P1 as (x1 & e1' & R1 & P1 & K1 & Y1); destruct P2 as (x2 & e2' & R2 & P2 & K2 & Y2); rewrite P1 in P2;
            injection P2 as A1 A2 _; subst e2'; repeat split;
            [now apply (same_kind_trans _ _ e1')
            |now rewrite (client_dead _ _ _ _ _ _ _ _ _ (ri2_state _ _ _ I) F1),
                         (client_dead _ _ _ _ _ _ _ _ _ (ri2_state _ _ _ I2) F2)
            |exists x1; split; [exact Y1|rewrite A1; exact Y2]]).
  all: try (destruct P1 as (x1 & P1 & Y1); destruct P2 as (x2 & P2 & Y2); rewrite P1 in P2;
            injection P2 as A1; exists x1; split; [exact Y1|rewrite A1; exact Y2]).
  all: repeat match goal with
       | H : exists _, _ |- _ => destruct H
       | H : _ /\ _ |- _ => destruct H
       end; congruence.
Qed.

Lemma feed_alike h1 h2 clen p segs1 segs2 :
  (forall l, h_clen h1 l = clen (flat l)) -> (forall l, h_clen h2 l = clen (flat l)) ->
  rinv2 p (hd [] segs1) (List.concat (tl segs1)) ->
  rinv2 p (hd [] segs2) (List.concat (tl segs2)) ->
  state p = state_fn p -> state_fn p <> StDetect1 ->
  segs1 <> [] -> segs2 <> [] -> List.concat segs1 = List.concat segs2 ->
  alike same_kind (feed h1 p segs1) (feed h2 p segs2).
Proof.
  intros C1 C2 I I2 St Nd N1 N2 E. apply (feed_alike2 h1 h2 clen); auto; try (intros X; contradiction).
  now rewrite E.
Qed.

Lemma feed_alike_eq h1 h2 clen p segs1 segs2 :
  parser_type p <> Multipart ->
  (forall l, h_clen h1 l = clen (flat l)) -> (forall l, h_clen h2 l = clen (flat l)) ->
  rinv2 p (hd [] segs1) (List.concat (tl segs1)) ->
  rinv2 p (hd [] segs2) (List.concat (tl segs2)) ->
  state p = state_fn p -> state_fn p <> StDetect1 ->
  segs1 <> [] -> segs2 <> [] -> List.concat segs1 = List.concat segs2 ->
  alike eq (feed h1 p segs1) (feed h2 p segs2).
Proof.
  intros T C1 C2 I I2 St Nd N1 N2 E.
  apply (alike_weaken same_kind).
  - intros e1 e2 E1 E2 K.
    destruct (feed h1 p segs1) as [[[p1 l1] rest1] o1] eqn:F1. cbn [snd] in E1. subst o1.
    apply client_error in F1; [|apply I|assumption]. destruct e1, e2; cbn in *; try congruence; tauto.
  - now apply (feed_alike h1 h2 clen).
Qed.

(* ------------------------------------------------------------------ *)
(* content_length() matters to multipart parsers only                    *)
(* ------------------------------------------------------------------ *)

Definition no_clen (h : handler) : handler := Handler (h_ret h) (fun _ => None).

Lemma run_fn_no_clen h m : state_fn (mp m) <> StMultipartDetectData -> run_fn h m = run_fn (no_clen h) m.
Proof. intros N. unfold run_fn. destruct (state_fn (mp m)); try reflexivity. congruence. Qed.

Lemma parse_no_clen h fuel : forall m,
  vstate (parser_type (mp m)) (state_fn (mp m)) = true -> parser_type (mp m) <> Multipart ->
  parse fuel h m = parse fuel (no_clen h) m.
Proof.
  induction fuel as [|fuel IH]; intros m V T; [reflexivity|]. cbn [parse].
  rewrite run_fn_no_clen.
  2:{ intros E. rewrite E in V. destruct (parser_type (mp m)); try discriminate V. congruence. }
  destruct (run_fn (no_clen h) m) as [m' o] eqn:R.
  destruct (wp_run _ _ (run_fn_vstate (no_clen h) m V) _ _ R) as [V' _].
  pose proof (wp_run _ _ (run_fn_misc (no_clen h) m) _ _ R) as M.
  destruct o; try reflexivity. apply IH; [assumption|]. now rewrite (mi_type _ _ _ M).
Qed.

Lemma resume_no_clen h p log s :
  vstate (parser_type p) (state_fn p) = true -> parser_type p <> Multipart ->
  resume h p log s = resume (no_clen h) p log s.
Proof.
  intros V T. unfold resume. destruct (parser_type p) eqn:Tp; try congruence.
  1,2: rewrite (parse_no_clen h) by (cbn [mp]; congruence); reflexivity.
  cbv zeta. rewrite (parse_no_clen h) by (cbn [mp]; congruence).
  rewrite cut_eq.
  destruct (parse _ (no_clen h) _) as [m r] eqn:P. destruct (parse_facts_all _ _ _ _ _ _ P).
  destruct r as [[n|n|n]|e1|f|]; try reflexivity.
  destruct (_ <? _); [reflexivity|]. destruct (_ =? 0); [|reflexivity].
  rewrite (parse_no_clen h); [reflexivity| |]; cbn [mp with_p p_set_state parser_type state_fn]; rewrite pf_type0, Tp.
  - reflexivity.
  - discriminate.
Qed.

Lemma client_no_clen h fuel : forall p log segs,
  vstate (parser_type p) (state_fn p) = true -> parser_type p <> Multipart ->
  client fuel h p log segs = client fuel (no_clen h) p log segs.
Proof.
  induction fuel as [|fuel IH]; intros p log segs V T; [reflexivity|].
  destruct segs as [|seg more]; [reflexivity|]. cbn [client].
  rewrite (resume_no_clen h) by assumption.
  destruct (resume (no_clen h) p log seg) as [[p1 log1] r] eqn:R.
  destruct (resume_facts_all _ _ _ _ _ _ _ V R).
  destruct r as [[n|n|n]|e1|f|]; try reflexivity; apply IH; congruence.
Qed.
