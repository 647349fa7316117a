(* Lemmas behind the property files on the resume loop and on segmentation. *)

From Coq Require Import NArith List Bool Arith String Lia.
From Verif Require Import Bytes ByteStream Http1Model Http1Base Http1Wp Http1Term Http1Spec Http1Sem Http1Sim
     Http1Step Http1Misc Http1Run Http1Client.
Import ListNotations.
Local Open Scope N_scope.

(* ------------------------------------------------------------------ *)
(* Termination of the dispatch loop                                     *)
(* ------------------------------------------------------------------ *)

Lemma dispatch_exists h : forall k m, (measure (state_fn (mp m)) (crest (mc m)) < k)%nat ->
  exists n m' o, (n <= k)%nat /\ dispatch h n m m' o.
Proof.
  induction k as [|k IH]; intros m Hk; [lia|].
  destruct (run_fn h m) as [m1 o1] eqn:R.
  pose proof (wp_run _ _ (run_fn_step h m) _ _ R) as S. unfold step_post in S.
  destruct o1 as [|s|e|f].
  - destruct (IH m1) as (n & m' & o & L & D); [lia|].
    exists (Datatypes.S n), m', o. split; [lia|]. now apply dispatch_go with m1.
  - exists 1%nat, m1, (Exit s). split; [lia|]. now constructor.
  - exists 1%nat, m1, (Fail e). split; [lia|]. now constructor.
  - exists 1%nat, m1, (Faulted f). split; [lia|]. now constructor.
Qed.

Lemma dispatch_bound h p log s :
  exists n m' o, (n <= 8 * List.length s + 16)%nat /\ dispatch h n (Mach p (bs_new s) log) m' o.
Proof. apply dispatch_exists. cbn [mp mc bs_new crest]. apply measure_fuel. Qed.

Lemma resume_no_fuel h p log s : snd (resume h p log s) <> RFuel.
Proof.
  unfold resume.
  assert (P : forall s p, snd (parse (fuel_of s) h (Mach p (bs_new s) log)) <> RFuel).
  { intros s0 p0. apply parse_fuel_of. apply le_n. }
  destruct (parser_type p) eqn:T.
  1-3: specialize (P s p); now destruct (parse _ _ _).
  cbv zeta. rewrite cut_eq. specialize (P (firstn (N.to_nat (plength p)) s) p).
  destruct (parse _ _ _) as [m r] eqn:E in P |- *. cbn [snd] in P.
  destruct r as [[n|n|n]|e|f|]; cbn [snd]; try congruence.
  - destruct (_ <? _); discriminate.
  - destruct (_ <? _); [discriminate|]. destruct (_ =? 0); [|discriminate].
    pose proof (parse_facts_all _ _ _ _ _ _ E) as PF.
    destruct (parse _ h (with_p _ _)) as [m2 r2] eqn:P2. cbn [snd].
    unfold fuel_of in P2.
    replace (8 * List.length (firstn (N.to_nat (plength p)) s) + 16)%nat
      with (Datatypes.S (Datatypes.S (8 * List.length (firstn (N.to_nat (plength p)) s) + 14))) in P2 by lia.
    apply body_finish in P2; [|reflexivity|exact (eq_trans (pf_type _ _ _ _ _ PF) T)].
    destruct P2 as (_ & _ & _ & _ & _ & _ & [-> | ->]); discriminate.
Qed.

(* ------------------------------------------------------------------ *)
(* Return values                                                        *)
(* ------------------------------------------------------------------ *)

Lemma resume_lengths h p log s p' log' r :
  reachable p -> resume h p log s = (p', log', r) ->
  match r with
  | ROk (SEos n) => n = List.length s /\ n = List.length (visible p s)
  | ROk (SCallback n) | ROk (SFinished n) => (n <= List.length (visible p s))%nat
  | RErr _ | RFault _ => True
  | RFuel => False
  end.
Proof.
  intros R E. pose proof (resume_facts_all _ _ _ _ _ _ _ (reachable_vstate _ R) E) as RF.
  destruct r as [[n|n|n]|e|f|]; auto.
  - apply (rf_cb _ _ _ _ _ _ RF n eq_refl).
  - destruct (rf_eos _ _ _ _ _ _ RF n eq_refl) as (A & B & _). auto.
  - apply (rf_fin _ _ _ _ _ _ RF n eq_refl).
  - now apply (rf_fuel _ _ _ _ _ _ RF).
Qed.

Lemma add_count_0 p : add_count p 0 = p.
Proof. destruct p. unfold add_count. cbn. now rewrite N.add_0_r. Qed.

Lemma error_sticky h p log s p1 log1 e :
  reachable p -> resume h p log s = (p1, log1, RErr e) ->
  state p1 = StDead /\
  forall h' log' s', resume h' p1 log' s' = (p1, log', RErr ErDead).
Proof.
  intros R E. pose proof (resume_facts_all _ _ _ _ _ _ _ (reachable_vstate _ R) E) as RF.
  destruct (rf_err _ _ _ _ _ _ RF e eq_refl) as [F S]. split; [assumption|]. intros h' log' s'.
  rewrite resume_dead, add_count_0 by assumption. do 2 f_equal.
  destruct p1. unfold p_set_state. cbn in *. congruence.
Qed.

Lemma finished_absorbing h p log s p1 log1 n :
  reachable p -> resume h p log s = (p1, log1, ROk (SFinished n)) ->
  state p1 = StFinished /\
  forall h' log' s', resume h' p1 log' s' = (p1, log', ROk (SFinished 0)).
Proof.
  intros R E. pose proof (resume_facts_all _ _ _ _ _ _ _ (reachable_vstate _ R) E) as RF.
  destruct (rf_fin _ _ _ _ _ _ RF n eq_refl) as (_ & F & S). split; [assumption|]. intros h' log' s'.
  rewrite resume_finished, add_count_0 by assumption. do 2 f_equal.
  destruct p1. unfold with_state_only. cbn in *. congruence.
Qed.

(* ------------------------------------------------------------------ *)
(* byte_count                                                           *)
(* ------------------------------------------------------------------ *)

Lemma resume_count h p log s p' log' r :
  reachable p -> parser_type p <> UrlEncoded -> resume h p log s = (p', log', r) ->
  match r with
  | ROk (SEos n) | ROk (SCallback n) | ROk (SFinished n) => byte_count p' = byte_count p + N.of_nat n
  | RErr _ => exists n, (n <= List.length s)%nat /\ byte_count p' = byte_count p + N.of_nat n
  | _ => True
  end.
Proof.
  intros R T E. pose proof (resume_facts_all _ _ _ _ _ _ _ (reachable_vstate _ R) E) as RF. now apply (rf_count _ _ _ _ _ _ RF).
Qed.

Lemma client_count h fuel : forall p log segs p' log' rest o,
  vstate (parser_type p) (state_fn p) = true -> parser_type p <> UrlEncoded ->
  client fuel h p log segs = (p', log', rest, o) ->
  match o with
  | OEos | OFinished =>
      byte_count p' + N.of_nat (List.length rest) =
      byte_count p + N.of_nat (List.length (List.concat segs))
  | _ => True
  end.
Proof.
  induction fuel as [|fuel IH]; intros p log segs p' log' rest o V T E.
  - destruct segs; injection E as <- <- <- <-; [reflexivity|exact I].
  - destruct segs as [|seg more]; [injection E as <- <- <- <-; reflexivity|]. cbn [client] in E.
    destruct (resume h p log seg) as [[p1 log1] r] eqn:R.
    pose proof (resume_facts_all _ _ _ _ _ _ _ V R) as RF. pose proof (rf_count _ _ _ _ _ _ RF T) as rf_count0.
    assert (Vi : visible p seg = seg) by (unfold visible; now destruct (parser_type p)).
    destruct r as [[n|n|n]|e|f|]; try (injection E as <- <- <- <-; exact I).
    + apply IH in E; [|apply RF|now rewrite (rf_type _ _ _ _ _ _ RF)]. destruct (rf_cb _ _ _ _ _ _ RF n eq_refl) as [Le _]. rewrite Vi in Le.
      cbn [List.concat] in *. rewrite app_length, skipn_length in E.
      destruct o; auto; rewrite app_length; lia.
    + apply IH in E; [|apply RF|now rewrite (rf_type _ _ _ _ _ _ RF)]. destruct (rf_eos _ _ _ _ _ _ RF n eq_refl) as [Le _].
      cbn [List.concat] in *. destruct o; auto; rewrite app_length; lia.
    + injection E as <- <- <- <-. destruct (rf_fin _ _ _ _ _ _ RF n eq_refl) as [Le _]. rewrite Vi in Le.
      cbn [List.concat]. rewrite !app_length, skipn_length. lia.
Qed.

Lemma feed_count h p segs p' log' rest o :
  reachable p -> parser_type p <> UrlEncoded ->
  feed h p segs = (p', log', rest, o) -> o = OEos \/ o = OFinished ->
  byte_count p' + N.of_nat (List.length rest) =
  byte_count p + N.of_nat (List.length (List.concat segs)).
Proof.
  intros R T E O. pose proof (client_count _ _ _ _ _ _ _ _ _ (reachable_vstate _ R) T E) as C.
  destruct O; subst o; exact C.
Qed.

Lemma feed_terminates h p segs : reachable p -> snd (feed h p segs) <> OFuel.
Proof. intros R. apply feed_ends. now apply reachable_vstate. Qed.

(* ------------------------------------------------------------------ *)
(* Segmentation                                                         *)
(* ------------------------------------------------------------------ *)

Lemma head_segmentation q h1 h2 segs1 segs2 :
  segs1 <> [] -> segs2 <> [] -> List.concat segs1 = List.concat segs2 ->
  hok (strip (List.concat segs1)) = true \/
  (9 <= List.length (strip (hd [] segs1)) /\ 9 <= List.length (strip (hd [] segs2)))%nat ->
  alike eq (feed h1 (init_head q) segs1) (feed h2 (init_head q) segs2).
Proof.
  intros N1 N2 E H.
  unfold feed. rewrite (client_no_clen h1), (client_no_clen h2) by (reflexivity || discriminate).
  apply (feed_alike_eq (no_clen h1) (no_clen h2) (fun _ => None)); auto; try discriminate.
  - constructor; try reflexivity; try discriminate.
    destruct H as [H|[H _]]; [left|right; left].
    + rewrite <- concat_hd. exact H.
    + split; [reflexivity|assumption].
  - constructor; try reflexivity; try discriminate.
    destruct H as [H|[_ H]]; [left|right; left].
    + rewrite <- concat_hd, <- E. exact H.
    + split; [reflexivity|assumption].
Qed.

Lemma chunked_segmentation q h1 h2 segs1 segs2 :
  segs1 <> [] -> segs2 <> [] -> List.concat segs1 = List.concat segs2 ->
  alike eq (feed h1 (init_chunked q) segs1) (feed h2 (init_chunked q) segs2).
Proof.
  intros N1 N2 E.
  unfold feed. rewrite (client_no_clen h1), (client_no_clen h2) by (reflexivity || discriminate).
  apply (feed_alike_eq (no_clen h1) (no_clen h2) (fun _ => None)); auto; try discriminate.
  all: constructor; try reflexivity; try discriminate; left; reflexivity.
Qed.

Lemma multipart_segmentation q bd clen h1 h2 segs1 segs2 :
  ~ In 13 bd -> N.of_nat (List.length bd) <= 2 ^ 14 ->
  (forall l, h_clen h1 l = clen (flat l)) -> (forall l, h_clen h2 l = clen (flat l)) ->
  segs1 <> [] -> segs2 <> [] -> List.concat segs1 = List.concat segs2 ->
  alike same_kind (feed h1 (set_boundary (init_multipart q) bd) segs1)
                  (feed h2 (set_boundary (init_multipart q) bd) segs2).
Proof.
  intros B1 B2 C1 C2 N1 N2 E.
  apply (feed_alike h1 h2 clen); auto; try discriminate.
  all: constructor; try reflexivity; try discriminate; [left; reflexivity|now intros _].
Qed.

Lemma url_segmentation q n h1 h2 segs1 segs2 :
  segs1 <> [] -> segs2 <> [] -> List.concat segs1 = List.concat segs2 ->
  alike eq (feed h1 (set_length (init_url_encoded q) n) segs1)
           (feed h2 (set_length (init_url_encoded q) n) segs2).
Proof.
  intros N1 N2 E.
  unfold feed. rewrite (client_no_clen h1), (client_no_clen h2) by (reflexivity || discriminate).
  apply (feed_alike_eq (no_clen h1) (no_clen h2) (fun _ => None)); auto; try discriminate.
  all: constructor; try reflexivity; try discriminate; left; reflexivity.
Qed.

(* ------------------------------------------------------------------ *)
(* A new parser                                                         *)
(* ------------------------------------------------------------------ *)

Definition new1 : parser := Parser 0 None 0 0 Head StDetect1 StDetect1.

(* The first step from a new parser, on a non-empty stream. *)
Lemma sw_some c lit : (List.length lit <= List.length (crest c))%nat ->
  exists v, bs_starts_with c lit = Some v.
Proof. intros L. unfold bs_starts_with. destruct (Nat.leb_spec (List.length lit) (List.length (crest c))); [eauto|lia]. Qed.

Lemma new_run_fn h b s log :
  run_fn h (Mach new1 (bs_new (b :: s)) log) = run_fn h (Mach new (bs_new (b :: s)) log) \/
  (exists m1 e, run_fn h (Mach new1 (bs_new (b :: s)) log) = (m1, Fail e) /\
   run_fn h (Mach new (bs_new (b :: s)) log) = (with_p m1 (with_state_only (mp m1) StStripDetect), Fail e)).
Proof.
  unfold run_fn. cbn [mp new new1 state_fn].
  unfold detect1, detect1_methods, if_starts_with, bs_has_bytes. cbn [mc].
  repeat match goal with
  | |- context [match bs_starts_with ?c ?l with _ => _ end] =>
      let E := fresh in let v := fresh in
      destruct (sw_some c l) as [v E];
      [cbn [bs_new crest List.length bs app String.length list_ascii_of_string map]; cbn; lia
      |rewrite !E; destruct v; clear E]
  | |- context [if (?l <=? ?c)%nat then _ else _] =>
      let E := fresh in
      destruct (Nat.leb_spec l c) as [E|E]; cbn [bs_new crest List.length] in E
  | |- context [if cbyte ?c =? ?l then _ else _] => destruct (cbyte c =? l)
  end; try (left; reflexivity).
  all: unfold detect1_slow, next_or_eos; cbn [mc bs_next bs_new crest cbyte].
  all: destruct (is_upper b); [left; reflexivity|right].
  all: do 2 eexists; split; reflexivity.
Qed.

Lemma new_resume h b s log : resume h new log (b :: s) = resume h new1 log (b :: s).
Proof.
  assert (P : parse (fuel_of (b :: s)) h (Mach new (bs_new (b :: s)) log) =
              parse (fuel_of (b :: s)) h (Mach new1 (bs_new (b :: s)) log)).
  { unfold fuel_of. replace (8 * List.length (b :: s) + 16)%nat with (Datatypes.S (8 * List.length (b :: s) + 15)) by lia.
    cbn [parse]. destruct (new_run_fn h b s log) as [->|(m1 & e & -> & ->)]; reflexivity. }
  unfold resume. change (parser_type new) with Head. change (parser_type new1) with Head.
  cbv iota. now rewrite P.
Qed.

Lemma new_feed h segs : hd [] segs <> [] -> feed h new segs = feed h new1 segs.
Proof.
  destruct segs as [|[|b s] more]; cbn [hd]; try congruence. intros _. unfold feed.
  assert (P : exists k, calls ((b :: s) :: more) = Datatypes.S k).
  { exists (calls ((b :: s) :: more) - 1)%nat. cbn [calls List.length]. lia. }
  destruct P as [k ->]. cbn [client]. now rewrite new_resume.
Qed.

Lemma new_like_init q h1 h2 (segs1 segs2 : list (list byte)) (b : byte) s :
  segs2 <> [] -> List.concat segs1 = List.concat segs2 ->
  hd [] segs1 <> [] ->
  List.concat segs1 = b :: s -> ~ In b [13; 10; 9; 32] ->
  hok (List.concat segs1) = true \/
  (9 <= List.length (hd [] segs1) /\ 9 <= List.length (hd [] segs2))%nat ->
  alike eq (feed h1 new segs1) (feed h2 (init_head q) segs2).
Proof.
  intros N2 E Hd E1 W H.
  assert (N1 : segs1 <> []) by (intros ->; now apply Hd).
  assert (Wb : (b =? 13) || (b =? 10) || (b =? 9) || (b =? 32) = false).
  { destruct (N.eqb_spec b 13), (N.eqb_spec b 10), (N.eqb_spec b 9), (N.eqb_spec b 32); subst; auto;
      exfalso; apply W; cbn; auto. }
  assert (W2 : strip (List.concat segs1) = List.concat segs1).
  { rewrite E1. cbn [strip]. now rewrite Wb. }
  assert (W3 : strip (hd [] segs2) = hd [] segs2).
  { destruct segs2 as [|[|b2 s2] m2]; [reflexivity|reflexivity|]. cbn [hd].
    rewrite E in E1. cbn [List.concat app] in E1. injection E1 as -> _. cbn [strip]. now rewrite Wb. }
  rewrite new_feed by assumption.
  unfold feed. rewrite (client_no_clen h1), (client_no_clen h2) by (reflexivity || discriminate).
  apply (alike_weaken same_kind).
  { intros e1 e2 X1 X2 K.
    destruct (client (calls segs1) (no_clen h1) new1 [] segs1) as [[[p1 l1] rest1] o1] eqn:F1. cbn [snd] in X1. subst o1.
    apply client_error in F1; [|reflexivity|discriminate]. destruct e1, e2; cbn in *; try congruence; tauto. }
  apply (feed_alike2 (no_clen h1) (no_clen h2) (fun _ => None)); auto; try discriminate.
  - constructor; try reflexivity; try discriminate.
    destruct H as [H|[H _]]; [left|right; right].
    + rewrite <- concat_hd. exact H.
    + split; [reflexivity|assumption].
  - constructor; try reflexivity; try discriminate.
    destruct H as [H|[_ H]]; [left|right; left].
    + change (hok (strip (hd [] segs2 ++ List.concat (tl segs2))) = true). now rewrite <- concat_hd, <- E, W2.
    + rewrite W3. split; [reflexivity|assumption].
  - rewrite <- E, E1. unfold rsem.
    unfold psem.
    change (parser_type (init_head q)) with Head. change (parser_type new1) with Head.
    change (boundary (init_head q)) with (@None (list byte)). change (boundary new1) with (@None (list byte)).
    change (alpha (init_head q)) with (A StStripDetect 0 0 0). change (alpha new1) with (A StDetect1 0 0 0).
    rewrite !aexec_byte by reflexivity. unfold abyte, abyte_raw. cbn [a_st]. now rewrite Wb.
Qed.
