(* Pausing changes nothing: proofs, the client. *)

From Coq Require Import NArith List Bool Arith String Lia.
From Verif Require Import Bytes ByteStream Http1Model Http1Base Http1Wp Http1Term Http1Spec
  Http1Sem Http1Sim Http1Step Http1Misc Http1Run Http1Client Http1Api Http1Pause Http1PauseFacts Http1Same Http1SameRun.
Import ListNotations.
Local Open Scope N_scope.

Definition is_url (t : ptype) : bool := match t with UrlEncoded => true | _ => false end.

Lemma loop_det h m m1 o1 : loop h m m1 o1 -> forall m2 o2, loop h m m2 o2 -> m1 = m2 /\ o1 = o2.
Proof.
  intros L. induction L as [m m1 o1 R N|m m0 m1 o1 R L IH]; intros m2 o2 L2.
  - inversion L2 as [? ? ? R2 N2|? ? ? ? R2 L2']; subst; rewrite R in R2; injection R2; intros; subst; auto; congruence.
  - inversion L2 as [? ? ? R2 N2|? ? ? ? R2 L2']; subst; rewrite R in R2; injection R2; intros; subst; auto; congruence.
Qed.

(* The loop inside one call. *)
Lemma loop_parse h p s log m o : loop h (Mach p (bs_new s) log) m o ->
  parse (fuel_of s) h (Mach p (bs_new s) log) = finish m o.
Proof.
  intros L. destruct (parse (fuel_of s) h (Mach p (bs_new s) log)) as [m2 r] eqn:E.
  destruct (parse_loop _ _ _ _ _ E (pf_fuel _ _ _ _ _ (parse_facts_all _ _ _ _ _ _ E))) as (m3 & o3 & L3 & F).
  destruct (loop_det _ _ _ _ L _ _ L3) as [-> ->]. exact F.
Qed.

Lemma loop_facts h p s log m o : loop h (Mach p (bs_new s) log) m o ->
  parse_facts p s log (fst (finish m o)) (snd (finish m o)).
Proof.
  intros L. apply (parse_facts_all h). rewrite (loop_parse _ _ _ _ _ _ L). now destruct (finish m o).
Qed.

Lemma skip_skip (s : list byte) : forall a b, skipn a (skipn b s) = skipn (a + b) s.
Proof.
  induction s as [|x s IH]; intros a b; [now rewrite !skipn_nil|].
  destruct b as [|b]; [now rewrite Nat.add_0_r|]. rewrite Nat.add_succ_r. apply IH.
Qed.

Lemma suf_skip (s r : list byte) n : suf s r -> (n + List.length r = List.length s)%nat -> r = skipn n s.
Proof.
  intros [x ->] H. rewrite app_length in H. assert (n = List.length x) as -> by lia.
  now rewrite skipn_app, skipn_all, Nat.sub_diag.
Qed.

(* The result of a call in terms of its loop; t is the whole piece. *)
Definition call_end (u : bool) (h : handler) (s : list byte) (m : mach) (o : outcome)
  : parser * list event * result :=
  let '(m, r) := finish m o in
  if u then
    match r with
    | ROk (SEos len) =>
        if plength (mp m) - N.of_nat len =? 0 then
          let '(m2, r2) := parse (fuel_of s) h (with_p m (p_set_state (mp m) StBodyFinished)) in
          (mp m2, ml m2, r2)
        else (with_length (mp m) (plength (mp m) - N.of_nat len), ml m, r)
    | ROk (SCallback len) => (with_length (mp m) (plength (mp m) - N.of_nat len), ml m, r)
    | _ => (mp m, ml m, r)
    end
  else (mp m, ml m, r).

Lemma visible_length p s : parser_type p = UrlEncoded -> N.of_nat (List.length (visible p s)) <= plength p.
Proof. intros T. unfold visible. rewrite T, firstn_length. lia. Qed.

Lemma resume_loop h p log s m o : vstate (parser_type p) (state_fn p) = true ->
  loop h (Mach p (bs_new (visible p s)) log) m o ->
  resume h p log s = call_end (is_url (parser_type p)) h (visible p s) m o.
Proof.
  intros V L. pose proof (loop_facts _ _ _ _ _ _ L) as F. pose proof (loop_parse _ _ _ _ _ _ L) as P.
  unfold resume, call_end. pose proof (visible_length p s) as Vl. unfold visible in *.
  destruct (parser_type p) eqn:T; cbn [is_url]; try (rewrite P; reflexivity).
  specialize (Vl eq_refl). rewrite cut_eq, P. destruct (finish m o) as [m2 r]. cbn [fst snd] in F.
  destruct F. rewrite T in pf_length. specialize (pf_length V eq_refl).
  destruct r as [[n|n|n]|e|f|]; try reflexivity.
  - destruct (pf_cb n eq_refl) as (? & _). destruct (N.ltb_spec (plength (mp m2)) (N.of_nat n)); [lia|reflexivity].
  - destruct (pf_eos n eq_refl) as (-> & _).
    destruct (N.ltb_spec (plength (mp m2)) (N.of_nat (List.length (firstn (N.to_nat (plength p)) s)))); [lia|reflexivity].
Qed.

(* All calls but the last. *)
Lemma trail_client u h m mf o : trail u h m mf o ->
  forall p log seg more fuel p1 l1 rest1 o1,
  m = Mach p (bs_new (visible p seg)) log -> u = is_url (parser_type p) ->
  vstate (parser_type p) (state_fn p) = true ->
  client fuel h p log (seg :: more) = (p1, l1, rest1, o1) -> o1 <> OFuel ->
  exists fuel' p' log' j, parser_type p' = parser_type p /\
    vstate (parser_type p') (state_fn p') = true /\
    (j <= List.length (visible p seg))%nat /\
    visible p' (skipn j seg) = skipn j (visible p seg) /\
    loop h (Mach p' (bs_new (visible p' (skipn j seg))) log') mf o /\
    (forall n, o <> Exit (SCallback n)) /\
    client (S fuel') h p' log' (skipn j seg :: more) = (p1, l1, rest1, o1).
Proof.
  intros T. induction T as [m mf o L N|m m1 n mf o L T IH]; intros p log seg more fuel p1 l1 rest1 o1 -> -> V C O.
  - destruct fuel as [|fuel]; [injection C as <- <- <- <-; congruence|].
    exists fuel, p, log, 0%nat. cbn [skipn]. repeat split; auto. lia.
  - destruct fuel as [|fuel]; [injection C as <- <- <- <-; congruence|].
    pose proof (loop_facts _ _ _ _ _ _ L) as F. cbn [finish fst snd] in F.
    destruct (pf_cb _ _ _ _ _ F n eq_refl) as (Le & En & _). cbn [mc with_p] in En.
    pose proof (pf_suf _ _ _ _ _ F) as Su. pose proof (pf_pos _ _ _ _ _ F) as Po. cbn [mc with_p] in Su, Po.
    assert (Cr : crest (mc m1) = skipn n (visible p seg)) by (apply suf_skip; [exact Su|lia]).
    cbn [client] in C. rewrite (resume_loop _ _ _ _ _ _ V L) in C.
    unfold call_end in C. cbn [finish] in C. subst n.
    pose proof (pf_type _ _ _ _ _ F) as Ty. pose proof (pf_vstate _ _ _ _ _ F V) as Vs.
    cbn [mp with_p add_count parser_type] in Ty, Vs.
    assert (Vi : visible (mp (fresh (is_url (parser_type p)) m1)) (skipn (cindex (mc m1)) seg) =
                 skipn (cindex (mc m1)) (visible p seg)).
    { unfold visible, fresh. cbn [mp]. destruct (parser_type p) eqn:Tp; cbn [is_url add_count with_length parser_type plength];
        rewrite Ty; try reflexivity.
      pose proof (pf_length _ _ _ _ _ F) as Pl. cbn [mp with_p add_count plength] in Pl.
      rewrite Pl by congruence. rewrite skipn_firstn_comm.
      f_equal. lia. }
    destruct (IH (mp (fresh (is_url (parser_type p)) m1)) (ml m1) (skipn (cindex (mc m1)) seg) more fuel p1 l1 rest1 o1)
      as (fuel' & p' & log' & j & E1 & E2 & E3 & E4 & E5 & E6 & E7).
    + rewrite Vi, <- Cr. reflexivity.
    + unfold fresh. cbn [mp]. destruct (is_url (parser_type p)) eqn:I; cbn [with_length add_count parser_type];
        rewrite Ty; congruence.
    + unfold fresh. cbn [mp]. destruct (is_url (parser_type p)); exact Vs.
    + unfold fresh. cbn [mp]. cbn [with_p mp ml add_count plength] in C |- *.
      destruct (is_url (parser_type p)); exact C.
    + exact O.
    + rewrite Vi, skipn_length in E3. rewrite skip_skip in E4, E5, E7. rewrite Vi, skip_skip in E4.
      exists fuel', p', log', (j + cindex (mc m1))%nat. repeat split; auto; try lia.
      rewrite E1. unfold fresh. cbn [mp]. destruct (is_url (parser_type p)); exact Ty.
Qed.

(* How two clients end. *)
Definition same_end (u : bool) (a b : parser * list event * list byte * ending) : Prop :=
  let '(p1, l1, rest1, o1) := a in
  let '(p2, l2, rest2, o2) := b in
  l1 = l2 /\ rest1 = rest2 /\ o1 = o2 /\
  match o1 with
  | OEos => p1 = p2
  | OFinished => state p1 = state p2 /\ (u = false -> p1 = p2)
  | OError _ => state p1 = state p2 /\ byte_count p1 = byte_count p2 /\ (u = false -> p1 = p2)
  | _ => True
  end.

Lemma patient_body h c log p fuel m2 r2 :
  state_fn p = StBodyFinished -> parser_type p = UrlEncoded ->
  parse (S (S fuel)) (patient h) (Mach p c log) = (m2, r2) -> r2 = ROk (SFinished (cindex c)).
Proof.
  intros F T E. cbn [parse] in E. unfold run_fn at 1 in E. cbn [mp] in E. rewrite F in E.
  unfold body_finished, callback_transition_data, callback_data, call, transition, remark, set_state, with_p, with_c,
    exit_callback in E. cbn [mp mc ml patient h_ret] in E.
  unfold run_fn in E. cbn [mp state_fn p_set_state] in E.
  unfold finished, exit_finished in E. cbn [mp mc ml with_p] in E. injection E as <- <-.
  unfold cindex, bs_mark. cbn [cmark cslice cindex List.length]. now rewrite Nat.add_0_r.
Qed.

Lemma patient_client h : forall segs f f' p log,
  vstate (parser_type p) (state_fn p) = true ->
  snd (client f h p log segs) <> OFuel -> snd (client f' (patient h) p log segs) <> OFuel ->
  same_end (is_url (parser_type p)) (client f h p log segs) (client f' (patient h) p log segs).
Proof.
  induction segs as [|seg more IH]; intros f f' p log V N N'.
  - destruct f, f'; cbn [client same_end]; auto.
  - destruct f' as [|f']; [cbn in N'; congruence|].
    destruct (parse (fuel_of (visible p seg)) (patient h) (Mach p (bs_new (visible p seg)) log)) as [m r] eqn:E.
    destruct (parse_loop _ _ _ _ _ E (pf_fuel _ _ _ _ _ (parse_facts_all _ _ _ _ _ _ E))) as (m' & o & L & _).
    clear E m r.
    destruct (patient_trail (is_url (parser_type p)) h _ _ _ L 0%nat (Mach p (bs_new (visible p seg)) log)) as (k & mf & o1 & T & F).
    { unfold mrel, prel. cbn [mp mc ml]. repeat split; auto; try lia.
      destruct (parser_type p) eqn:Tp; cbn [is_url]; try reflexivity. split; [|lia].
      destruct (state_fn p); try discriminate V; reflexivity. }
    { reflexivity. }
    destruct (client f h p log (seg :: more)) as [[[p1 l1] rest1] e1] eqn:C. cbn [snd] in N.
    destruct (trail_client _ _ _ _ _ T _ _ _ _ _ _ _ _ _ eq_refl eq_refl V C N)
      as (f1 & p' & log' & j & Ty & V1 & Lj & Vi & L1 & Nc & C1).
    clear C T. cbn [client] in C1, N' |- *.
    rewrite (resume_loop _ _ _ _ _ _ V1 L1) in C1. rewrite (resume_loop _ _ _ _ _ _ V L) in N' |- *.
    pose proof (loop_facts _ _ _ _ _ _ L) as F2. pose proof (loop_facts _ _ _ _ _ _ L1) as F1.
    rewrite Ty in C1. rewrite Vi in F1.
    destruct F as (P & Ml & Cr & Ci & Bc & Out). cbn [fst snd] in *.
    assert (J : (j + cindex (mc mf) = cindex (mc m'))%nat).
    { pose proof (pf_pos _ _ _ _ _ F1) as X1. pose proof (pf_pos _ _ _ _ _ F2) as X2.
      assert (Y : forall m o, mc (fst (finish m o)) = mc m) by (intros ? [|[]| |]; reflexivity).
      rewrite !Y in X1, X2. rewrite skipn_length, Cr in X1. lia. }
    assert (Sk : skipn (cindex (mc mf)) (skipn j seg) = skipn (cindex (mc m')) seg)
      by (rewrite skip_skip; f_equal; lia).
    destruct mf as [[bd bo bc ln ty st fn] c1 lg]. destruct m' as [[bd' bo' bc' ln' ty' st' fn'] c2 lg'].
    unfold prel in P.
    cbn [mp mc ml bit_data boundary byte_count plength parser_type state state_fn] in *.
    destruct P as (-> & -> & -> & -> & -> & Pl). subst lg bc.
    destruct o1 as [|[n|n|n]|e|x], o as [|[n'|n'|n']|e'|x']; try contradiction; subst.
    + destruct (pf_eos _ _ _ _ _ F1 n eq_refl) as (_ & En). destruct (pf_eos _ _ _ _ _ F2 _ eq_refl) as (_ & En').
      cbn [finish fst mc with_p] in En, En'. clear L L1.
      pose proof (pf_type _ _ _ _ _ F2) as Ty2. cbn [finish fst mp with_p add_count parser_type] in Ty2.
      pose proof (pf_vstate _ _ _ _ _ F2 V) as V2. cbn [finish fst mp with_p add_count parser_type state_fn] in V2.
      unfold call_end in *. cbn [finish with_p mp ml mc add_count plength
        bit_data boundary byte_count parser_type state state_fn] in C1, N' |- *.
      destruct (is_url (parser_type p)) eqn:U.
      * destruct Pl as [_ ->].
        replace (ln' - N.of_nat k - N.of_nat n) with (ln' - N.of_nat (k + n)) in C1 by lia.
        destruct (N.eqb_spec (ln' - N.of_nat (k + n)) 0) as [Z|Z].
        -- assert (Tu : ty' = UrlEncoded) by (destruct (parser_type p); try discriminate U; exact Ty2).
           unfold fuel_of in C1, N' |- *.
           replace (8 * List.length (visible p' (skipn j seg)) + 16)%nat
             with (S (S (8 * List.length (visible p' (skipn j seg)) + 14))) in C1 by lia.
           replace (8 * List.length (visible p seg) + 16)%nat
             with (S (S (8 * List.length (visible p seg) + 14))) in N' |- * by lia.
           unfold with_p in C1, N' |- *. cbn [mp mc ml] in C1, N' |- *.
           match type of C1 with context [parse ?a ?b (Mach ?c ?d ?e)] =>
             destruct (parse a b (Mach c d e)) as [m1 r1] eqn:E1;
             destruct (body_finish b d e c _ m1 r1 eq_refl Tu E1) as (B1 & B2 & B3 & B4 & B5 & B6 & B7) end.
           match goal with |- context [parse ?a ?b (Mach ?c ?d ?e)] =>
             destruct (parse a b (Mach c d e)) as [m2 r2] eqn:E2;
             destruct (body_finish b d e c _ m2 r2 eq_refl Tu E2) as (D1 & D2 & D3 & D4 & D5 & D6 & _);
             pose proof (patient_body h d e c _ m2 r2 eq_refl Tu E2) as -> end.
           destruct B7 as [-> | ->].
           ++ injection C1 as <- <- <- <-. cbn [same_end]. rewrite Sk, B1, D1, B3, D3. repeat split. discriminate.
           ++ destruct f1 as [|f1]; [cbn [client] in C1; injection C1 as <- <- <- <-; congruence|].
              cbn [client] in C1. rewrite (resume_finished _ _ _ _ B2) in C1.
              injection C1 as <- <- <- <-. cbn [same_end skipn with_state_only state]. rewrite Sk, B1, D1, D3.
              repeat split. discriminate.
        -- assert (Q : with_length (add_count (Parser bd' bo' (bc' + N.of_nat k) (ln' - N.of_nat k) ty' st' fn') (cindex c1))
                         (ln' - N.of_nat (k + n)) =
                       with_length (add_count (Parser bd' bo' bc' ln' ty' st' fn') (cindex c2)) (ln' - N.of_nat (k + n))).
           { unfold with_length, add_count. cbn [bit_data boundary byte_count parser_type state state_fn]. f_equal. lia. }
           rewrite Q in C1. rewrite <- C1.
           match goal with |- same_end ?b (client _ _ ?q _ _) _ =>
             assert (B : is_url (parser_type q) = b) by (cbn [add_count with_length parser_type]; rewrite Ty2; exact U);
             refine (eq_ind _ (fun v => same_end v _ _) (IH _ _ _ _ _ _ _) _ B) end; [exact V2|rewrite C1; exact N|exact N'].
      * subst ln.
        assert (Q : add_count (Parser bd' bo' (bc' + N.of_nat k) ln' ty' st' fn') (cindex c1) =
                    add_count (Parser bd' bo' bc' ln' ty' st' fn') (cindex c2)).
        { unfold add_count. cbn [bit_data boundary byte_count plength parser_type state state_fn]. f_equal. lia. }
        rewrite Q in C1. rewrite <- C1.
        match goal with |- same_end ?b (client _ _ ?q _ _) _ =>
          assert (B : is_url (parser_type q) = b) by (cbn [add_count with_length parser_type]; rewrite Ty2; exact U);
          refine (eq_ind _ (fun v => same_end v _ _) (IH _ _ _ _ _ _ _) _ B) end; [exact V2|rewrite C1; exact N|exact N'].
    + destruct (pf_fin _ _ _ _ _ F1 n eq_refl) as (_ & En & _). destruct (pf_fin _ _ _ _ _ F2 _ eq_refl) as (_ & En' & _).
      cbn [finish fst mc with_p] in En, En'.
      unfold call_end in *. cbn [finish with_p mp ml mc add_count] in C1, N' |- *.
      assert (X : forall (b : bool) (x : parser * list event * result), (if b then x else x) = x) by (now intros []).
      rewrite X in C1. rewrite X.
      injection C1 as <- <- <- <-. cbn [same_end]. rewrite En', En, Sk.
      repeat split; auto. intros U. rewrite U in Pl. subst ln. unfold with_state_only, add_count.
      cbn [bit_data boundary byte_count plength parser_type state state_fn]. f_equal. lia.
    + unfold call_end in *. cbn [finish with_p mp ml mc add_count] in C1, N' |- *.
      assert (X : forall (b : bool) (x : parser * list event * result), (if b then x else x) = x) by (now intros []).
      rewrite X in C1. rewrite X.
      injection C1 as <- <- <- <-. cbn [same_end]. repeat split; auto.
      * unfold p_set_state, add_count; cbn [byte_count]. lia.
      * intros U. rewrite U in Pl. subst ln. unfold p_set_state, add_count.
        cbn [bit_data boundary byte_count plength parser_type state state_fn]. f_equal. lia.
    + unfold call_end in *. cbn [finish with_p mp ml mc add_count] in C1, N' |- *.
      assert (X : forall (b : bool) (x : parser * list event * result), (if b then x else x) = x) by (now intros []).
      rewrite X in C1. rewrite X.
      injection C1 as <- <- <- <-. cbn [same_end]. repeat split; auto.
Qed.

(* Handlers that give the same lengths. *)
Section Lengths.
  Variables h h' : handler.
  Hypothesis Hc : forall l, h_clen h l = h_clen h' l.

  Lemma patient_run m : run_fn (patient h) m = run_fn (patient h') m.
  Proof.
    unfold run_fn. destruct (state_fn (mp m)); try reflexivity.
    unfold multipart_detect_data. cbn [h_clen patient]. now rewrite Hc.
  Qed.

  Lemma patient_parse : forall fuel m, parse fuel (patient h) m = parse fuel (patient h') m.
  Proof.
    induction fuel as [|fuel IH]; intros m; [reflexivity|]. cbn [parse]. rewrite patient_run.
    destruct (run_fn (patient h') m) as [m1 [|[]| |]]; try reflexivity. apply IH.
  Qed.

  Lemma patient_resume p log s : resume (patient h) p log s = resume (patient h') p log s.
  Proof.
    unfold resume. destruct (parser_type p); rewrite patient_parse; try reflexivity.
    destruct (parse _ _ _) as [m [[]| | |]]; try reflexivity. now rewrite patient_parse.
  Qed.

  Lemma patient_same : forall fuel p log segs,
    client fuel (patient h) p log segs = client fuel (patient h') p log segs.
  Proof.
    induction fuel as [|fuel IH]; intros p log segs; destruct segs as [|seg more]; try reflexivity.
    cbn [client]. rewrite patient_resume. destruct (resume _ _ _ _) as [[p1 l1] [[]| | |]]; auto.
  Qed.
End Lengths.

Lemma same_end_trans u a b c : same_end u a c -> same_end u b c -> same_end u a b.
Proof.
  destruct a as [[[p1 l1] r1] o1], b as [[[p2 l2] r2] o2], c as [[[p3 l3] r3] o3]. cbn [same_end].
  intros (-> & -> & -> & A) (-> & -> & -> & B).
  destruct o3; repeat split; try (intuition congruence).
Qed.

Lemma h1_same h h' p segs : reachable p -> (forall l, h_clen h l = h_clen h' l) ->
  same_end (is_url (parser_type p)) (feed h p segs) (feed h' p segs).
Proof.
  intros R Hc. pose proof (reachable_vstate _ R) as V.
  apply same_end_trans with (feed (patient h) p segs).
  - apply patient_client; [exact V| |]; now apply feed_ends.
  - unfold feed. rewrite (patient_same h h' Hc). apply patient_client; [exact V| |]; now apply feed_ends.
Qed.
