(* How the data of the calls are cut out of a piece: proofs, whole calls. *)

From Coq Require Import NArith List Bool Arith String Lia ZifyBool.
From Verif Require Import Bytes ByteStream Http1Model Http1Base Http1Wp Http1Term Http1Spec
  Http1Protocol Http1Sem Http1Sim Http1Step Http1Misc Http1Data Http1Run Http1Client Http1Api
  Http1Same Http1SameRun Http1SameClient Http1Pieces Http1PiecesFacts.
Import ListNotations.
Local Open Scope N_scope.

(* ------------------------------------------------------------------ *)
(* The relation                                                         *)
(* ------------------------------------------------------------------ *)

Lemma cut_skips bd x s l : cut_from bd s l -> cut_from bd (x ++ s) l.
Proof. intros C. induction x as [|b x IH]; [exact C|]. cbn [app]. now constructor. Qed.

Lemma cut_suf bd s s' l : suf s s' -> cut_from bd s' l -> cut_from bd s l.
Proof. intros [x ->]. apply cut_skips. Qed.

Lemma cut_more bd s l t : cut_from bd s l -> cut_from bd (s ++ t) l.
Proof. intros C. induction C; try (now constructor). rewrite <- app_assoc. now constructor. Qed.

Lemma cut_then bd s l e : cut_from bd s l -> (forall k d, e <> EData k d) -> cut_from bd s (l ++ [e]).
Proof. intros C H. induction C; cbn [app]; try (now constructor). apply cut_call; [exact H|constructor]. Qed.

Lemma small_lower d : Forall (fun b => lower_tchar b = true) d -> map small d = d.
Proof.
  intros F. induction F as [|b d H F IH]; [reflexivity|]. cbn [map]. rewrite IH. f_equal.
  unfold lower_tchar in H. apply andb_true_iff in H. destruct H as [_ H].
  unfold small. destruct ((65 <=? b) && (b <=? 90)); [discriminate H|reflexivity].
Qed.

Lemma rd_read bd k x d : ok_event (EData k d) -> rd bd k x d -> read_as bd k x d.
Proof.
  intros [_ O] [R|E]; [exact R|]. subst x. destruct (is_name k) eqn:N; [|now constructor].
  rewrite <- (small_lower d) at 2; [now constructor|].
  destruct k; try discriminate N; exact O.
Qed.

(* ------------------------------------------------------------------ *)
(* Neighbours                                                           *)
(* ------------------------------------------------------------------ *)

Definition starts (k : dkind) (l : list event) : Prop := exists d l', l = EData k d :: l'.
Definition apart (k : dkind) (l : list event) : Prop := forall a d d' b, l <> a ++ EData k d :: EData k d' :: b.

Lemma apart_nil k : apart k [].
Proof. intros [|e a] d d' b E; discriminate E. Qed.

Lemma apart_cons k e l : (forall d, e = EData k d -> ~ starts k l) -> apart k l -> apart k (e :: l).
Proof.
  intros H A [|x a] d d' b E; cbn [app] in E; injection E; intros; subst.
  - apply (H d eq_refl). now exists d', b.
  - now apply (A a d d' b).
Qed.

Lemma apart_then k l e : apart k l -> (forall k d, e <> EData k d) -> apart k (l ++ [e]).
Proof.
  intros A H. induction l as [|x l IH].
  - apply apart_cons; [|apply apart_nil]. intros d E. now apply H in E.
  - cbn [app]. apply apart_cons.
    + intros d -> (d' & l' & E). destruct l as [|y l]; cbn [app] in E; injection E; intros.
      * now apply (H k d').
      * subst y. apply (A [] d d' l). reflexivity.
    + apply IH. intros a d d' b E. apply (A (x :: a) d d' b). cbn [app]. now f_equal.
Qed.

(* ------------------------------------------------------------------ *)
(* The loop                                                             *)
(* ------------------------------------------------------------------ *)

Lemma parse_cut h fuel : forall m m' r, slice_ok (state_fn (mp m)) (cslice (mc m)) ->
  parse fuel h m = (m', r) ->
  exists x, ml m' = ml m ++ x /\ boundary (mp m') = boundary (mp m) /\
    cut_from (boundary (mp m)) (left_of m) x /\
    forall k, whole k = true -> apart k x /\ (safe_of k m = true -> ~ starts k x).
Proof.
  assert (Nil : forall k, apart k [] /\ ~ starts k []).
  { intros k. split; [apply apart_nil|]. intros (d & l & E). discriminate E. }
  induction fuel as [|fuel IH]; intros m m' r S E; cbn [parse] in E.
  - injection E as <- _. exists []. rewrite app_nil_r. repeat split; try constructor; intros; apply Nil.
  - destruct (run_fn h m) as [m1 o] eqn:R.
    destruct (wp_run _ _ (run_fn_data h m S) _ _ R) as [(x & X1 & X2) S1].
    destruct (wp_run _ _ (run_fn_cut h m S) _ _ R) as (x' & X1' & C).
    assert (x' = x) as -> by (apply app_inv_head with (ml m); congruence). clear X1'.
    assert (U : forall k, whole k = true ->
      match x with
      | [] => o = Continue -> safe_of k m = true -> safe_of k m1 = true
      | [e] => forall d, e = EData k d -> safe_of k m = false /\ (o = Continue -> safe_of k m1 = true)
      | _ => False
      end).
    { intros k W. destruct (wp_run _ _ (run_fn_uncut k h m W) _ _ R) as (x' & X1' & U).
      assert (x' = x) as -> by (apply app_inv_head with (ml m); congruence). exact U. }
    pose proof (mi_bd _ _ _ (wp_run _ _ (run_fn_misc h m) _ _ R)) as B.
    destruct o as [|s|e|f].
    + destruct (IH _ _ _ (S1 eq_refl) E) as (y & Y1 & Y2 & Y3 & Y4). clear IH E. rewrite B in Y2, Y3.
      exists (x ++ y). split; [now rewrite Y1, X1, app_assoc|]. split; [exact Y2|].
      destruct x as [|e [|e' x]]; cbn [app].
      * split; [now apply cut_suf with (1 := C eq_refl)|]. intros k W. destruct (Y4 k W) as [Y5 Y6].
        split; [exact Y5|]. intros H. apply Y6. now apply U.
      * destruct C as [C1 C2]. unfold left_of at 1 in Y3. rewrite (C1 eq_refl) in Y3. cbn [app] in Y3.
        split.
        -- destruct e; try (apply cut_call; [intros; discriminate|]; now apply cut_suf with (1 := C2)).
           destruct C2 as (a & z & b & -> & Rd & Su). apply cut_skips.
           apply cut_data; [|apply rd_read; [|exact Rd]|now apply cut_suf with (1 := Su)].
           ++ inversion X2 as [|? ? O _]. apply O.
           ++ now inversion X2.
        -- intros k W. destruct (Y4 k W) as [Y5 Y6]. split.
           ++ apply apart_cons; [|exact Y5]. intros d Ed. destruct (U k W d Ed) as [_ U2]. auto.
           ++ intros H (d & l & Ed). injection Ed; intros; subst e. destruct (U k W d eq_refl). congruence.
      * contradiction.
    + assert (Em : ml m' = ml m1 /\ boundary (mp m') = boundary (mp m1))
        by (destruct s; injection E as <- _; now split).
      destruct Em as [-> ->]. clear E IH.
      exists x. split; [exact X1|]. split; [exact B|].
      destruct x as [|e [|e' x]]; [split; [constructor|intros; split; [apply apart_nil|intros _; apply Nil]]| |contradiction].
      destruct C as [_ C2]. split.
      * destruct e; try (apply cut_call; [intros; discriminate|constructor]).
        destruct C2 as (a & z & b & -> & Rd & Su). apply cut_skips.
        apply cut_data; [|apply rd_read; [|exact Rd]|constructor]; inversion X2 as [|? ? O _]; apply O.
      * intros k W. split; [apply apart_cons; [intros; apply Nil|apply apart_nil]|].
        intros H (d & l & Ed). injection Ed; intros; subst e. destruct (U k W d eq_refl). congruence.
    + assert (Em : ml m' = ml m1 /\ boundary (mp m') = boundary (mp m1)) by (injection E as <- _; now split).
      destruct Em as [-> ->]. clear E IH.
      exists x. split; [exact X1|]. split; [exact B|].
      destruct x as [|ev [|e' x]]; [split; [constructor|intros; split; [apply apart_nil|intros _; apply Nil]]| |contradiction].
      destruct C as [_ C2]. split.
      * destruct ev; try (apply cut_call; [intros; discriminate|constructor]).
        destruct C2 as (a & z & b & -> & Rd & Su). apply cut_skips.
        apply cut_data; [|apply rd_read; [|exact Rd]|constructor]; inversion X2 as [|? ? O _]; apply O.
      * intros k W. split; [apply apart_cons; [intros; apply Nil|apply apart_nil]|].
        intros H (d & l & Ed). injection Ed; intros; subst ev. destruct (U k W d eq_refl). congruence.
    + injection E as <- _. clear IH.
      exists x. split; [exact X1|]. split; [exact B|].
      destruct x as [|ev [|e' x]]; [split; [constructor|intros; split; [apply apart_nil|intros _; apply Nil]]| |contradiction].
      destruct C as [_ C2]. split.
      * destruct ev; try (apply cut_call; [intros; discriminate|constructor]).
        destruct C2 as (a & z & b & -> & Rd & Su). apply cut_skips.
        apply cut_data; [|apply rd_read; [|exact Rd]|constructor]; inversion X2 as [|? ? O _]; apply O.
      * intros k W. split; [apply apart_cons; [intros; apply Nil|apply apart_nil]|].
        intros H (d & l & Ed). injection Ed; intros; subst ev. destruct (U k W d eq_refl). congruence.
Qed.

Lemma apart_uncut l : (forall k, whole k = true -> apart k l) -> uncut l.
Proof.
  intros A a k d d' b E. destruct (whole k) eqn:W; [|reflexivity]. now apply (A k W a d d' b) in E.
Qed.

(* One call. *)
Lemma resume_cut h p log s p' log' r :
  resume h p log s = (p', log', r) ->
  exists x, log' = log ++ x /\ boundary p' = boundary p /\ cut_from (boundary p) s x /\ uncut x.
Proof.
  intros E. unfold resume in E.
  assert (D : forall n c m r, parse n h (Mach p (bs_new c) log) = (m, r) ->
              exists x, ml m = log ++ x /\ boundary (mp m) = boundary p /\ cut_from (boundary p) c x /\
                forall k, whole k = true -> apart k x).
  { intros n c m r0 P. apply parse_cut in P; [|apply slice_ok_nil].
    destruct P as (x & P1 & P2 & P3 & P4). exists x. repeat split; auto. intros k W. now apply P4. }
  assert (Done : forall m, (exists x, ml m = log ++ x /\ boundary (mp m) = boundary p /\ cut_from (boundary p) s x /\
                forall k, whole k = true -> apart k x) ->
                exists x, ml m = log ++ x /\ boundary (mp m) = boundary p /\ cut_from (boundary p) s x /\ uncut x).
  { intros m (x & X1 & X2 & X3 & X4). exists x. repeat split; auto. now apply apart_uncut. }
  destruct (parser_type p).
  1-3: destruct (parse _ _ _) as [m r0] eqn:P; injection E as <- <- <-; exact (Done _ (D _ _ _ _ P)).
  cbv zeta in E. destruct (parse _ _ _) as [m r0] eqn:P in E. apply D in P.
  assert (P' : exists x, ml m = log ++ x /\ boundary (mp m) = boundary p /\ cut_from (boundary p) s x /\
                forall k, whole k = true -> apart k x).
  { destruct P as (x & P1 & P2 & P3 & P4). exists x. repeat split; auto.
    destruct (_ <? _); [|exact P3]. rewrite <- (firstn_skipn (N.to_nat (plength p)) s). now apply cut_more. }
  clear P. pose proof (Done _ P') as F.
  destruct r0 as [[n|n|n]|e|f|].
  - destruct (_ <? _); injection E as <- <- <-; exact F.
  - destruct (_ <? _); [injection E as <- <- <-; exact F|].
    destruct (_ =? 0); [|injection E as <- <- <-; exact F].
    destruct (parse _ h (with_p _ _)) as [m2 r2] eqn:P2 in E. injection E as <- <- <-.
    assert (Q : ml m2 = ml m ++ [EBodyFinished] /\ boundary (mp m2) = boundary (mp m)).
    { revert P2. unfold fuel_of. set (k := if _ <? _ then _ else _). clearbody k.
      replace (8 * List.length k + 16)%nat with (Datatypes.S (Datatypes.S (8 * List.length k + 14))) by lia.
      cbn [parse]. unfold run_fn at 1. cbn [with_p mp p_set_state state_fn].
      unfold body_finished, callback_transition_data, callback_data, call. cbn [set_state mp mc ml with_p].
      destruct (h_ret _ _ _); cbn; intros [= <- <-]; now split. }
    destruct Q as [Q1 Q2]. destruct P' as (x & X1 & X2 & X3 & X4). exists (x ++ [EBodyFinished]).
    rewrite Q1, Q2, X1, app_assoc. repeat split; auto.
    + apply cut_then; [exact X3|intros; discriminate].
    + apply apart_uncut. intros k W. apply apart_then; [auto|intros; discriminate].
  - injection E as <- <- <-; exact F.
  - injection E as <- <- <-; exact F.
  - injection E as <- <- <-; exact F.
  - injection E as <- <- <-; exact F.
Qed.

(* ------------------------------------------------------------------ *)
(* A stream in pieces                                                   *)
(* ------------------------------------------------------------------ *)

Lemma patient_parse_goes h fuel : forall m m' r, parse fuel (patient h) m = (m', r) -> forall n, r <> ROk (SCallback n).
Proof.
  induction fuel as [|fuel IH]; intros m m' r E n; cbn [parse] in E; [injection E as _ <-; discriminate|].
  destruct (run_fn (patient h) m) as [m1 o] eqn:R. pose proof (patient_goes _ _ _ _ R) as G.
  destruct o as [|s|e|f]; [exact (IH _ _ _ E n)| | |]; injection E as _ <-; intros F; try discriminate F.
  injection F as ->. now apply (G n).
Qed.

Lemma patient_resume_goes h p log s p' log' r :
  resume (patient h) p log s = (p', log', r) -> forall n, r <> ROk (SCallback n).
Proof.
  unfold resume. destruct (parser_type p).
  1-3: destruct (parse _ _ _) as [m r0] eqn:P; intros E; injection E as <- <- <-; exact (patient_parse_goes _ _ _ _ _ P).
  cbv zeta. destruct (parse _ _ _) as [m r0] eqn:P. pose proof (patient_parse_goes _ _ _ _ _ P) as G.
  destruct r0 as [[n|n|n]|e|f|]; try (intros E; injection E as <- <- <-; discriminate).
  - now specialize (G n).
  - destruct (plength (mp m) <? N.of_nat n); [intros E; injection E as <- <- <-; discriminate|].
    destruct (_ =? 0); [|intros E; injection E as <- <- <-; discriminate].
    destruct (parse _ _ (with_p _ _)) as [m2 r2] eqn:P2. intros E. injection E as <- <- <-. exact (patient_parse_goes _ _ _ _ _ P2).
Qed.

Definition piece_ok (bd : option (list byte)) (s : list byte) (l : list event) : Prop := cut_from bd s l /\ uncut l.

Lemma piece_nil bd s : piece_ok bd s [].
Proof. split; [constructor|]. intros a k d d' b E. destruct a; discriminate E. Qed.

Lemma nil_parts bd : forall segs : list (list byte),
  Forall2 (piece_ok bd) segs (map (fun _ => []) segs) /\
  forall i, List.concat (firstn i (map (fun _ : list byte => @nil event) segs)) = [].
Proof.
  induction segs as [|s segs [IH1 IH2]]; cbn [map]; (split; [constructor|intros i]); auto using piece_nil.
  - now destruct i.
  - destruct i; [reflexivity|]. cbn [firstn List.concat app]. apply IH2.
Qed.

Lemma client_parts h : forall segs f p log,
  snd (client f (patient h) p log segs) <> OFuel ->
  exists parts, Forall2 (piece_ok (boundary p)) segs parts /\
    forall i f', snd (client f' (patient h) p log (firstn i segs)) <> OFuel ->
      snd (fst (fst (client f' (patient h) p log (firstn i segs)))) = log ++ List.concat (firstn i parts).
Proof.
  induction segs as [|seg more IH]; intros f p log N.
  - exists []. split; [constructor|]. intros i f' _. rewrite !firstn_nil. destruct f'; cbn; now rewrite app_nil_r.
  - destruct f as [|f]; [cbn in N; congruence|]. cbn [client] in N.
    destruct (resume (patient h) p log seg) as [[p' log'] r] eqn:R.
    pose proof (patient_resume_goes _ _ _ _ _ _ _ R) as G.
    destruct (resume_cut _ _ _ _ _ _ _ R) as (x & -> & B & C & U).
    assert (Stop : (forall n, r <> ROk (SEos n)) -> forall f' more', snd (client (S f') (patient h) p log (seg :: more')) <> OFuel ->
              snd (fst (fst (client (S f') (patient h) p log (seg :: more')))) = log ++ x).
    { intros Ne f' more'. cbn [client]. rewrite R. destruct r as [[n|n|n]|e|y|]; try reflexivity.
      - now specialize (G n).
      - now specialize (Ne n). }
    assert (End : (forall n, r <> ROk (SEos n)) -> exists parts, Forall2 (piece_ok (boundary p)) (seg :: more) parts /\
      forall i f', snd (client f' (patient h) p log (firstn i (seg :: more))) <> OFuel ->
        snd (fst (fst (client f' (patient h) p log (firstn i (seg :: more))))) = log ++ List.concat (firstn i parts)).
    { intros Ne. destruct (nil_parts (boundary p) more) as [M1 M2].
      exists (x :: map (fun _ => []) more). split; [constructor; [now split|exact M1]|].
      intros i f' N'. destruct i as [|i]; [destruct f'; cbn; now rewrite app_nil_r|].
      cbn [firstn] in N' |- *. destruct f' as [|f']; [cbn in N'; congruence|].
      rewrite (Stop Ne) by exact N'. cbn [List.concat]. now rewrite M2, app_nil_r. }
    destruct r as [[n|n|n]|e|y|]; try (apply End; intros; discriminate).
    clear End Stop. destruct (IH _ _ _ N) as (parts & P1 & P2). rewrite B in P1.
    exists (x :: parts). split; [constructor; [now split|exact P1]|].
    intros i f' N'. destruct i as [|i]; [destruct f'; cbn; now rewrite app_nil_r|].
    cbn [firstn] in N' |- *. destruct f' as [|f']; [cbn in N'; congruence|]. cbn [client] in N' |- *.
    rewrite R in N' |- *. rewrite P2 by exact N'. cbn [List.concat]. now rewrite app_assoc.
Qed.

(* ------------------------------------------------------------------ *)
(* Statements                                                           *)
(* ------------------------------------------------------------------ *)

Lemma h1_cut_one h p log s p' log' r :
  resume h p log s = (p', log', r) ->
  exists calls, log' = log ++ calls /\ cut_from (boundary p) s calls /\ uncut calls.
Proof. intros E. destruct (resume_cut _ _ _ _ _ _ _ E) as (x & ? & _ & ? & ?). now exists x. Qed.

Lemma h1_cut_pieces h p segs : reachable p ->
  exists parts, Forall2 (fun s l => cut_from (boundary p) s l /\ uncut l) segs parts /\
    forall i, snd (fst (fst (feed h p (firstn i segs)))) = List.concat (firstn i parts).
Proof.
  intros R. pose proof (reachable_vstate _ R) as V.
  destruct (client_parts h segs (calls segs) p []) as (parts & P1 & P2); [now apply feed_ends|].
  exists parts. split; [exact P1|]. intros i.
  pose proof (h1_same h (patient h) p (firstn i segs) R (fun _ => eq_refl)) as S.
  specialize (P2 i (calls (firstn i segs))). change (client _ (patient h) p [] (firstn i segs)) with (feed (patient h) p (firstn i segs)) in P2.
  specialize (P2 (feed_ends (patient h) p (firstn i segs) V)).
  destruct (feed h p (firstn i segs)) as [[[p1 l1] r1] o1], (feed (patient h) p (firstn i segs)) as [[[p2 l2] r2] o2].
  cbn [same_end] in S. cbn [fst snd] in *. destruct S as (-> & _). exact P2.
Qed.
