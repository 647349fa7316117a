(* Round trips: what a well-formed message does to the automaton, hence to the
   parser. *)

From Coq Require Import NArith List Bool Arith String Lia.
From Verif Require Import Bytes ByteStream Http1Model Http1Base Http1Wp Http1Term Http1Spec Http1Sem
  Http1Sim Http1Step Http1Misc Http1Run Http1Client Http1Api Http1Protocol Http1Data Http1Wire.
Import ListNotations.
Local Open Scope N_scope.

(* ------------------------------------------------------------------ *)
(* From the automaton to the client                                     *)
(* ------------------------------------------------------------------ *)

Lemma feed_exact h clen p segs l a rest :
  (forall l, h_clen h l = clen (flat l)) ->
  rinv2 p (hd [] segs) (List.concat (tl segs)) -> segs <> [] -> state_fn p <> StDetect1 ->
  rsem clen p [] (List.concat segs) = ADone l a rest -> a_st a = StFinished ->
  exists p' log, feed h p segs = (p', log, rest, OFinished) /\ flat log = l /\ state_fn p' = StFinished.
Proof.
  intros Hc I N D R F.
  destruct (feed h p segs) as [[[p' log] rest'] o] eqn:E.
  assert (NF : o <> OFuel).
  { pose proof (feed_ends h p segs (ri2_state _ _ _ I)) as X. rewrite E in X. exact X. }
  unfold feed in E.
  destruct (client_sim h clen Hc _ _ _ _ _ _ _ _ I (or_intror N) (fun X => match D X with end) E) as [P _].
  unfold client_post in P. cbn [flat flat_map] in P. rewrite R in P.
  destruct o.
  - destruct P as ([= -> -> ->] & _ & S). destruct S as [S _].
    exfalso. assert (X : state_fn p' = StFinished).
    { destruct (parser_type p') eqn:T; unfold alpha, nrm in F; rewrite T in F; exact F. }
    rewrite X in S. discriminate.
  - destruct P as ([= -> -> ->] & S). exists p', log. auto.
  - destruct P as (? & ? & ? & P & _). discriminate.
  - destruct P as (? & P & _). discriminate.
  - congruence.
Qed.

(* ------------------------------------------------------------------ *)
(* Byte classes                                                         *)
(* ------------------------------------------------------------------ *)

Lemma lookup_true t (P : byte -> bool) :
  forallb (fun i => implb (P (N.of_nat i)) (match lookup t (N.of_nat i) with Some true => true | _ => false end))
          (seq 0 256) = true ->
  forall b, b < 256 -> P b = true -> lookup t b = Some true.
Proof.
  intros H b L E. rewrite forallb_forall in H. specialize (H (N.to_nat b)).
  rewrite N2Nat.id, E in H. cbn [implb] in H.
  destruct (lookup t b) as [[]|]; try reflexivity; exfalso;
    (assert (false = true) by (apply H, in_seq; lia); discriminate).
Qed.

Lemma tchar_small b : tchar b = true -> b < 256.
Proof.
  unfold tchar. rewrite !orb_true_iff, !andb_true_iff, existsb_exists.
  rewrite !N.leb_le. intros H. destruct H as [H|(x & I & E)]; [unfold byte in *; lia|].
  apply N.eqb_eq in E. subst x. cbn in I. repeat (destruct I as [<-|I]; [reflexivity|]). contradiction.
Qed.

Lemma tchar_token b : tchar b = true -> is_token b = Some true.
Proof.
  intros H. apply (lookup_true _ tchar); [vm_compute; reflexivity|now apply tchar_small|assumption].
Qed.

Lemma tchar_visible b : tchar b = true -> is_visible_7bit b = true.
Proof.
  intros H. pose proof (tchar_small _ H).
  assert (A : forallb (fun i => implb (tchar (N.of_nat i)) (is_visible_7bit (N.of_nat i))) (seq 0 256) = true)
    by (vm_compute; reflexivity).
  rewrite forallb_forall in A. specialize (A (N.to_nat b)). rewrite N2Nat.id, H in A. apply A.
  apply in_seq. lia.
Qed.

Lemma tchar_not b c : tchar b = true -> tchar c = false -> (b =? c) = false.
Proof. intros H1 H2. apply N.eqb_neq. intros ->. congruence. Qed.

Lemma tchar_lower b : (if is_upper b then b + 32 else b) = lower_case b.
Proof.
  unfold is_upper, lower_case.
  replace (64 <? b) with (65 <=? b) by (destruct (N.leb_spec 65 b), (N.ltb_spec 64 b); lia).
  replace (b <? 91) with (b <=? 90) by (destruct (N.leb_spec b 90), (N.ltb_spec b 91); lia).
  reflexivity.
Qed.

Lemma field_byte_field b : field_byte b = true -> b <> 34 -> is_header_field b = Some true.
Proof.
  intros H N. apply (lookup_true _ (fun b => field_byte b && negb (b =? 34)));
    [vm_compute; reflexivity| |].
  - unfold field_byte in H. apply andb_true_iff in H. destruct H as [_ H]. apply N.ltb_lt in H. unfold byte in *; lia.
  - rewrite H. cbn. apply negb_true_iff. now apply N.eqb_neq.
Qed.

Lemma field_byte_quoted b : field_byte b = true -> b <> 34 -> b <> 92 -> is_quoted_header_field b = Some true.
Proof.
  intros H N1 N2. apply (lookup_true _ (fun b => field_byte b && negb (b =? 34) && negb (b =? 92)));
    [vm_compute; reflexivity| |].
  - unfold field_byte in H. apply andb_true_iff in H. destruct H as [_ H]. apply N.ltb_lt in H. unfold byte in *; lia.
  - rewrite H. cbn. apply N.eqb_neq in N1, N2. now rewrite N1, N2.
Qed.

(* ------------------------------------------------------------------ *)
(* Header fields                                                        *)
(* ------------------------------------------------------------------ *)

Section Keep.
  Variables (t : ptype) (bd : option (list byte)) (clen : list fevent -> option N) (lo up len : N).
  Hypothesis K : forall s, uses_lo s = false -> uses_up s = false -> nrm t (A s lo up len) = A s lo up len.

  Notation S s := (A s lo up len).
  Notation run s := (aexec t bd clen (A s lo up len)).

  Lemma keep s b ev s' l r :
    needs_byte s = true -> uses_lo s' = false -> uses_up s' = false ->
    abyte_raw bd (S s) b = AGo ev (S s') ->
    run s l (b :: r) = run s' (l ++ ev) r.
  Proof.
    intros N U1 U2 E. rewrite aexec_byte by exact N. unfold abyte. rewrite E, K by assumption. reflexivity.
  Qed.

  Lemma name_bytes n : forall l r, Forall (fun b => tchar b = true) n ->
    run StLowerHeaderName l (n ++ r) = run StLowerHeaderName (l ++ map (FByte KHeaderName) (map lower_case n)) r.
  Proof.
    induction n as [|b n IH]; intros l r F; cbn [app map]; [now rewrite app_nil_r|].
    inversion F as [|? ? F1 F2]; subst.
    rewrite (keep _ _ [FByte KHeaderName (lower_case b)] StLowerHeaderName) by
      (try reflexivity; cbn [abyte_raw a_st]; unfold a_lower_name, by_table; rewrite tchar_token by assumption;
       rewrite <- tchar_lower; destruct (is_upper b); reflexivity).
    rewrite IH by assumption. rewrite <- app_assoc. reflexivity.
  Qed.

  Lemma header_name_first s b l r : s = StHeaderCr2 \/ s = StCheckHeaderName ->
    tchar b = true ->
    run s l (b :: r) = run StLowerHeaderName (l ++ [FByte KHeaderName (lower_case b)]) r.
  Proof.
    intros Hs H. apply keep; try reflexivity; [destruct Hs as [-> | ->]; reflexivity|].
    assert (E : a_check_name (S s) b = AGo [FByte KHeaderName (lower_case b)] (S StLowerHeaderName)).
    { unfold a_check_name, a_first_name, a_lower_name, by_table.
      rewrite (tchar_not b 32), (tchar_not b 9) by (assumption || reflexivity). cbn [orb].
      rewrite tchar_visible, tchar_token by assumption. rewrite <- tchar_lower.
      destruct (is_upper b); reflexivity. }
    destruct Hs as [-> | ->]; cbn [abyte_raw a_st]; [|exact E].
    rewrite (tchar_not b 13) by (assumption || reflexivity). exact E.
  Qed.

  Lemma pad_bytes w : forall l r, padding w ->
    run StStripHeaderValue l (w ++ r) = run StStripHeaderValue l r.
  Proof.
    induction w as [|b w IH]; intros l r F; cbn [app]; [reflexivity|].
    inversion F as [|? ? F1 F2]; subst.
    rewrite (keep _ _ [] StStripHeaderValue) by
      (try reflexivity; cbn [abyte_raw a_st]; unfold a_strip; destruct F1 as [-> | ->]; reflexivity).
    rewrite app_nil_r. now apply IH.
  Qed.

  Definition vstate_of (m : qmode) : pstate :=
    match m with Plain => StHeaderValue | Quoted => StHeaderQuotedValue | Escaped => StHeaderEscapedValue end.

  Lemma text_step m b v : field_text_ok m (b :: v) = true ->
    exists m', abyte_raw bd (S (vstate_of m)) b = AGo [FByte KHeaderValue b] (S (vstate_of m')) /\
               field_text_ok m' v = true.
  Proof.
    destruct m; cbn [field_text_ok vstate_of abyte_raw a_st]; intros H.
    - destruct (N.eqb_spec b 34) as [->|N].
      + exists Quoted. now split.
      + apply andb_true_iff in H. destruct H as [H1 H2]. exists Plain. split; [|exact H2].
        unfold a_value, by_table. now rewrite field_byte_field.
    - destruct (N.eqb_spec b 34) as [->|N]; [exists Plain; now split|].
      destruct (N.eqb_spec b 92) as [->|N']; [exists Escaped; now split|].
      apply andb_true_iff in H. destruct H as [H1 H2]. exists Quoted. split; [|exact H2].
      unfold a_quoted, by_table. now rewrite field_byte_quoted.
    - apply andb_true_iff in H. destruct H as [H1 H2]. exists Quoted. split; [|exact H2].
      unfold a_escaped, is_escapable. apply andb_true_iff in H1. destruct H1 as [H1 H3].
      apply N.leb_le in H1, H3.
      replace (31 <? b) with true by (symmetry; apply N.ltb_lt; unfold byte in *; lia).
      replace (b <? 123) with true by (symmetry; apply N.ltb_lt; unfold byte in *; lia).
      reflexivity.
  Qed.

  Lemma vstate_needs m : needs_byte (vstate_of m) = true /\ uses_lo (vstate_of m) = false /\ uses_up (vstate_of m) = false.
  Proof. now destruct m. Qed.

  Lemma text_bytes v : forall m l r, field_text_ok m v = true ->
    run (vstate_of m) l (v ++ r) = run StHeaderValue (l ++ map (FByte KHeaderValue) v) r.
  Proof.
    induction v as [|b v IH]; intros m l r H; cbn [app map].
    - rewrite app_nil_r. destruct m; try discriminate. reflexivity.
    - destruct (text_step _ _ _ H) as (m' & E & H').
      destruct (vstate_needs m) as (N & _ & _). destruct (vstate_needs m') as (_ & U1 & U2).
      rewrite (keep _ _ _ _ _ _ N U1 U2 E), (IH _ _ _ H'). rewrite <- app_assoc. reflexivity.
  Qed.

  Lemma value_bytes v l r : starts_visible v -> field_text_ok Plain v = true ->
    run StStripHeaderValue l (v ++ r) = run StHeaderValue (l ++ map (FByte KHeaderValue) v) r.
  Proof.
    intros V H. destruct v as [|b v]; [contradiction|]. cbn [app map].
    destruct (text_step Plain b v H) as (m' & E & H').
    destruct (vstate_needs m') as (_ & U1 & U2).
    cbn [starts_visible] in V. change (is_visible_7bit b = true) in V.
    assert (V2 := V). unfold is_visible_7bit in V2. apply andb_true_iff in V2. destruct V2 as [V1 V2].
    apply N.leb_le in V1, V2.
    assert (E2 : abyte_raw bd (S StStripHeaderValue) b = AGo [FByte KHeaderValue b] (S (vstate_of m'))).
    { cbn [abyte_raw a_st vstate_of] in *. unfold a_strip. 
      replace (b =? 32) with false by (symmetry; apply N.eqb_neq; unfold byte in *; lia).
      replace (b =? 9) with false by (symmetry; apply N.eqb_neq; unfold byte in *; lia).
      cbn [orb]. rewrite V. rewrite <- E. unfold a_value, by_table, st. cbn [a_lo a_up a_len]. reflexivity. }
    rewrite (keep StStripHeaderValue _ _ _ _ _ eq_refl U1 U2 E2), (text_bytes _ _ _ _ H').
    rewrite <- app_assoc. reflexivity.
  Qed.

  Lemma value_end l r : run StHeaderValue l (13 :: 10 :: r) = run StHeaderCr2 l r.
  Proof.
    rewrite (keep _ _ [] StHeaderLf1) by reflexivity.
    rewrite (keep _ _ [] StHeaderCr2) by reflexivity. now rewrite !app_nil_r.
  Qed.

  Lemma folds_bytes fs : forall l r,
    Forall (fun '(c, l) => (c = 32 \/ c = 9) /\ field_text_ok Plain l = true) fs ->
    run StHeaderValue l (flat_map (fun '(c, l) => crlf ++ c :: l) fs ++ r) =
    run StHeaderValue (l ++ map (FByte KHeaderValue) (flat_map snd fs)) r.
  Proof.
    induction fs as [|[c x] fs IH]; intros l r F; cbn [flat_map app map]; [now rewrite app_nil_r|].
    inversion F as [|? ? F1 F2]; subst. destruct F1 as [F1 F1'].
    unfold crlf at 1. cbn [app snd]. rewrite <- app_assoc, value_end.
    rewrite (keep StHeaderCr2 c [] StHeaderValue) by
      (try reflexivity; destruct F1 as [-> | ->]; reflexivity).
    rewrite app_nil_r. rewrite (text_bytes x Plain) by assumption. rewrite IH by assumption.
    rewrite map_app, app_assoc. reflexivity.
  Qed.

  Lemma header_bytes f l r : wf_header f ->
    run StHeaderCr2 l (render_header f ++ r) = run StHeaderCr2 (l ++ seen_header f) r.
  Proof.
    intros (N & T & P & V & Q & Fo). unfold render_header, seen_header.
    destruct f as [nm pd vl fo]. cbn [h_name h_pad h_value h_folds] in *.
    destruct nm as [|b n]; [congruence|]. inversion T as [|? ? T1 T2]; subst.
    cbn [app map]. rewrite header_name_first by auto.
    rewrite <- !app_assoc. rewrite name_bytes by assumption. cbn [app].
    rewrite (keep StLowerHeaderName 58 [] StStripHeaderValue) by reflexivity.
    rewrite app_nil_r, <- !app_assoc, pad_bytes by exact P. rewrite value_bytes by assumption.
    rewrite folds_bytes by exact Fo.
    unfold crlf. cbn [app]. rewrite value_end. f_equal.
    rewrite map_app, <- !app_assoc. reflexivity.
  Qed.

  Lemma headers_bytes fs : forall l r, Forall wf_header fs ->
    run StHeaderCr2 l (render_headers fs ++ r) = run StHeaderEnd (l ++ flat_map seen_header fs) r.
  Proof.
    unfold render_headers. induction fs as [|f fs IH]; intros l r F; cbn [flat_map app].
    - unfold crlf. cbn [app]. rewrite (keep StHeaderCr2 13 [] StHeaderLf2) by reflexivity.
      rewrite (keep StHeaderLf2 10 [] StHeaderEnd) by reflexivity. rewrite !app_nil_r. reflexivity.
    - inversion F; subst. rewrite <- !app_assoc. rewrite header_bytes by assumption.
      rewrite app_assoc. rewrite IH by assumption. now rewrite <- app_assoc.
  Qed.
End Keep.

(* ------------------------------------------------------------------ *)
(* Heads                                                                *)
(* ------------------------------------------------------------------ *)

Lemma head_keeps s : uses_lo s = false -> uses_up s = false -> nrm Head (A s 0 0 0) = A s 0 0 0.
Proof. intros U1 U2. unfold nrm. cbn. now rewrite U1, U2. Qed.

Section Head.
  Variables (bd : option (list byte)) (clen : list fevent -> option N).
  Notation run := (aexec Head bd clen).

  Lemma head_headers fs l r : Forall wf_header fs ->
    run (A StHeaderCr2 0 0 0) l (render_headers fs ++ r) = ADone (l ++ seen_headers fs) (A StFinished 0 0 0) r.
  Proof.
    intros F. rewrite (headers_bytes Head) by (exact head_keeps || assumption).
    rewrite (aexec_eps _ _ _ (A StHeaderEnd 0 0 0) _ _ [FEv EHeadersFinished] (A StFinished 0 0 0)) by reflexivity.
    rewrite aexec_finished by reflexivity. unfold seen_headers. now rewrite <- app_assoc.
  Qed.

  Lemma hkeep s b ev s' l r :
    needs_byte s = true -> uses_lo s' = false -> uses_up s' = false ->
    abyte_raw bd (A s 0 0 0) b = AGo ev (A s' 0 0 0) ->
    run (A s 0 0 0) l (b :: r) = run (A s' 0 0 0) (l ++ ev) r.
  Proof. apply (keep Head). exact head_keeps. Qed.

  Lemma head_blank w : forall l r, blank w ->
    run (A StStripDetect 0 0 0) l (w ++ r) = run (A StStripDetect 0 0 0) l r.
  Proof.
    intros l r F. apply aexec_loop_skip; [reflexivity|].
    eapply Forall_impl; [|exact F]. intros b [-> |[-> |[-> | ->]]]; reflexivity.
  Qed.

  (* the status or version end: digits *)
  Lemma decimal1 a : decimal [a] = a - 48. Proof. unfold decimal. cbn [fold_left]. lia. Qed.
  Lemma decimal2 a b : decimal [a; b] = (a - 48) * 10 + (b - 48). Proof. unfold decimal. cbn [fold_left]. lia. Qed.
  Lemma decimal3 a b c : decimal [a; b; c] = ((a - 48) * 10 + (b - 48)) * 10 + (c - 48).
  Proof. unfold decimal. cbn [fold_left]. lia. Qed.

  Lemma digit_is b : digit b -> is_digit b = true.
  Proof.
    unfold digit, is_digit. intros H. apply andb_true_iff. split; [apply N.leb_le|apply N.leb_le];
    unfold byte in *; lia.
  Qed.
  Lemma digit_not b c : digit b -> ~ digit c -> (b =? c) = false.
  Proof. intros H N. apply N.eqb_neq. intros ->. contradiction. Qed.

  Lemma version_digits maj min fin s_maj1 s_maj2 s_maj3 s_per s_min1 s_min2 s_min3 s_cr s_fin l r :
    (1 <= List.length maj <= 3)%nat -> Forall digit maj ->
    (1 <= List.length min <= 3)%nat -> Forall digit min ->
    (fin = 13 /\ (s_maj1, s_maj2, s_maj3, s_per) = (StRequestVersionMajor1, StRequestVersionMajor2, StRequestVersionMajor3, StRequestVersionPeriod) /\
     (s_min1, s_min2, s_min3, s_cr) = (StRequestVersionMinor1, StRequestVersionMinor2, StRequestVersionMinor3, StRequestVersionCr) /\
     s_fin = StInitialEnd) \/
    (fin = 32 /\ (s_maj1, s_maj2, s_maj3, s_per) = (StResponseVersionMajor1, StResponseVersionMajor2, StResponseVersionMajor3, StResponseVersionPeriod) /\
     (s_min1, s_min2, s_min3, s_cr) = (StResponseVersionMinor1, StResponseVersionMinor2, StResponseVersionMinor3, StResponseVersionSpace) /\
     s_fin = StResponseStatusCode1) ->
    run (A s_maj1 0 0 0) l (maj ++ 46 :: min ++ fin :: r) =
    run (A s_fin 0 0 0) (l ++ [FEv (EVersion (decimal maj) (decimal min))]) r.
  Proof.
    intros L1 F1 L2 F2 X.
    assert (M : forall x y z, digit x -> digit y -> digit z ->
               m14 (((x - 48) * 10 + (y - 48)) * 10 + (z - 48)) = ((x - 48) * 10 + (y - 48)) * 10 + (z - 48))
      by (unfold digit, byte, m14; intros; apply N.mod_small; change (2 ^ 14) with 16384; lia).
    assert (M2 : forall x y, digit x -> digit y -> m14 ((x - 48) * 10 + (y - 48)) = (x - 48) * 10 + (y - 48))
      by (unfold digit, byte, m14; intros; apply N.mod_small; change (2 ^ 14) with 16384; lia).
    assert (P1 : run (A s_maj1 0 0 0) l (maj ++ 46 :: min ++ fin :: r) =
                 run (A s_min1 (decimal maj) 0 0) l (min ++ fin :: r)).
    { clear L2 F2.
      destruct maj as [|a [|b [|c [|d ?]]]]; cbn [List.length] in L1; try lia;
      repeat match goal with H : Forall _ (_ :: _) |- _ => inversion H; clear H; subst end; clear L1;
      cbn [app]; rewrite ?decimal1, ?decimal2, ?decimal3;
      destruct X as [(-> & [= -> -> -> ->] & [= -> -> -> ->] & ->)|(-> & [= -> -> -> ->] & [= -> -> -> ->] & ->)];
      repeat (rewrite aexec_byte by reflexivity; unfold_a; rewrite ?digit_is by assumption;
              rewrite ?(digit_not _ 46) by (assumption || (unfold digit; lia)); ground; cbv iota; unfold_a;
              rewrite ?app_nil_r);
      rewrite ?M2 by assumption; rewrite ?M by assumption; reflexivity. }
    rewrite P1.
    destruct min as [|a [|b [|c [|d ?]]]]; cbn [List.length] in L2; try lia;
      repeat match goal with H : Forall _ (_ :: _) |- _ => inversion H; clear H; subst end; clear L1 L2 P1;
      cbn [app]; generalize (decimal maj); intros dm; rewrite ?decimal1, ?decimal2, ?decimal3;
      destruct X as [(-> & [= -> -> -> ->] & [= -> -> -> ->] & ->)|(-> & [= -> -> -> ->] & [= -> -> -> ->] & ->)];
      repeat (rewrite aexec_byte by reflexivity; unfold_a; rewrite ?digit_is by assumption;
              rewrite ?(digit_not _ 13), ?(digit_not _ 32) by (assumption || (unfold digit; lia)); ground; cbv iota; unfold_a;
              rewrite ?app_nil_r);
      rewrite ?M2 by assumption; rewrite ?M by assumption; reflexivity.
  Qed.

  Lemma upper_is (b : byte) : 65 <= b <= 90 -> is_upper b = true.
  Proof.
    intros H. unfold is_upper. apply andb_true_iff. split; apply N.ltb_lt; unfold byte in *; lia.
  Qed.

  Lemma method_more m : forall l r, Forall (fun b : byte => 65 <= b <= 90) m ->
    run (A StRequestMethod 0 0 0) l (m ++ 32 :: r) = run (A StRequestUrl1 0 0 0) (l ++ map (FByte KMethod) m) r.
  Proof.
    induction m as [|b m IH]; intros l r F; cbn [app map].
    - now rewrite (hkeep StRequestMethod 32 [] StRequestUrl1) by reflexivity.
    - inversion F as [|? ? F1 F2]; subst.
      rewrite (hkeep StRequestMethod b [FByte KMethod b] StRequestMethod) by
        (try reflexivity; cbn [abyte_raw a_st]; unfold a_method; now rewrite upper_is).
      rewrite IH by assumption. now rewrite <- app_assoc.
  Qed.

  Lemma detect_more s pre expect s' (m : list byte) l r :
    needs_byte s = true -> uses_lo s' = false -> uses_up s' = false ->
    (forall b, abyte_raw bd (A s 0 0 0) b = a_detect (A s 0 0 0) pre expect s' b) ->
    expect <> 32 ->
    (65 <= expect <= 90 -> forall m l, Forall (fun b : byte => 65 <= b <= 90) m ->
       run (A s' 0 0 0) l (m ++ 32 :: r) =
       run (A StRequestUrl1 0 0 0) (l ++ map (FByte KMethod) (pre ++ [expect] ++ m)) r) ->
    Forall (fun b : byte => 65 <= b <= 90) m ->
    run (A s 0 0 0) l (m ++ 32 :: r) = run (A StRequestUrl1 0 0 0) (l ++ map (FByte KMethod) (pre ++ m)) r.
  Proof.
    intros N U1 U2 E X IH F. destruct m as [|b m].
    - cbn [app]. rewrite (hkeep s 32 (map (FByte KMethod) pre) StRequestUrl1); try reflexivity; try assumption.
      + now rewrite app_nil_r.
      + rewrite E. unfold a_detect. replace (32 =? expect) with false by (symmetry; apply N.eqb_neq; congruence).
        cbn. now rewrite app_nil_r.
    - inversion F as [|? ? F1 F2]; subst. cbn [app]. destruct (N.eqb_spec b expect) as [->|NE].
      + rewrite (hkeep s expect [] s'); try assumption.
        * rewrite app_nil_r. rewrite IH by assumption. reflexivity.
        * rewrite E. unfold a_detect. now rewrite N.eqb_refl.
      + rewrite (hkeep s b (map (FByte KMethod) pre ++ [FByte KMethod b]) StRequestMethod); try reflexivity; try assumption.
        * rewrite method_more by assumption. rewrite !map_app. cbn [map]. now rewrite <- !app_assoc.
        * rewrite E. unfold a_detect, a_method. apply N.eqb_neq in NE. rewrite NE, upper_is by assumption. reflexivity.
  Qed.

  Lemma method_bytes m l r : m <> [] -> Forall (fun b : byte => 65 <= b <= 90) m ->
    run (A StStripDetect 0 0 0) l (m ++ 32 :: r) = run (A StRequestUrl1 0 0 0) (l ++ map (FByte KMethod) m) r.
  Proof.
    intros NE F. destruct m as [|b m]; [congruence|]. inversion F as [|? ? F1 F2]; subst. cbn [app].
    assert (W : ((b =? 13) || (b =? 10) || (b =? 9) || (b =? 32)) = false).
    { rewrite !orb_false_iff, !N.eqb_neq. unfold byte in *. lia. }
    destruct (N.eqb_spec b 72) as [->|N].
    - rewrite (hkeep StStripDetect 72 [] StDetect2) by reflexivity. rewrite app_nil_r.
      rewrite (detect_more StDetect2 (bs "H") 84 StDetect3); try reflexivity; try discriminate; try assumption.
      intros _ m1 l1 G1.
      rewrite (detect_more StDetect3 (bs "HT") 84 StDetect4); try reflexivity; try discriminate; try assumption.
      intros _ m2 l2 G2.
      rewrite (detect_more StDetect4 (bs "HTT") 80 StDetect5); try reflexivity; try discriminate; try assumption.
      intros _ m3 l3 G3.
      rewrite (detect_more StDetect5 (bs "HTTP") 47 StResponseVersionMajor1); try reflexivity; try discriminate; try assumption.
      unfold byte in *. lia.
    - rewrite (hkeep StStripDetect b [FByte KMethod b] StRequestMethod) by
        (try reflexivity; cbn [abyte_raw a_st]; rewrite W; unfold a_detect1; apply N.eqb_neq in N;
         now rewrite N, upper_is).
      rewrite method_more by assumption. now rewrite <- app_assoc.
  Qed.

  Lemma url_more u : forall l r, Forall (fun b => visible_byte b = true) u ->
    run (A StRequestUrl2 0 0 0) l (u ++ 32 :: r) = run (A StRequestHttp1 0 0 0) (l ++ map (FByte KUrl) u) r.
  Proof.
    induction u as [|b u IH]; intros l r F; cbn [app map].
    - now rewrite (hkeep StRequestUrl2 32 [] StRequestHttp1) by reflexivity.
    - inversion F as [|? ? F1 F2]; subst. change (is_visible_7bit b = true) in F1.
      rewrite (hkeep StRequestUrl2 b [FByte KUrl b] StRequestUrl2) by
        (try reflexivity; cbn [abyte_raw a_st]; unfold a_url2; now rewrite F1).
      rewrite IH by assumption. now rewrite <- app_assoc.
  Qed.

  Lemma url_bytes u l r : u <> [] -> Forall (fun b => visible_byte b = true) u ->
    run (A StRequestUrl1 0 0 0) l (u ++ 32 :: r) = run (A StRequestHttp1 0 0 0) (l ++ map (FByte KUrl) u) r.
  Proof.
    intros NE F. destruct u as [|b u]; [congruence|]. inversion F as [|? ? F1 F2]; subst. cbn [app].
    change (is_visible_7bit b = true) in F1.
    rewrite (hkeep StRequestUrl1 b [FByte KUrl b] StRequestUrl2) by
      (try reflexivity; cbn [abyte_raw a_st]; unfold a_url1; now rewrite F1).
    rewrite url_more by assumption. now rewrite <- app_assoc.
  Qed.

  Lemma request_exec q r : wf_request q ->
    run (A StStripDetect 0 0 0) [] (render_request q ++ r) = ADone (seen_request q) (A StFinished 0 0 0) r.
  Proof.
    intros (B & M1 & M2 & U1 & U2 & (V1 & V2 & V3 & V4) & Hs).
    unfold render_request, seen_request, render_version, seen_version, crlf.
    rewrite <- !app_assoc. cbn [app]. rewrite head_blank by assumption.
    rewrite method_bytes, url_bytes by assumption.
    change (bs "HTTP/") with [72; 84; 84; 80; 47]. cbn [app].
    rewrite (hkeep StRequestHttp1 72 [] StRequestHttp2) by reflexivity.
    rewrite (hkeep StRequestHttp2 84 [] StRequestHttp3) by reflexivity.
    rewrite (hkeep StRequestHttp3 84 [] StRequestHttp4) by reflexivity.
    rewrite (hkeep StRequestHttp4 80 [] StRequestHttp5) by reflexivity.
    rewrite (hkeep StRequestHttp5 47 [] StRequestVersionMajor1) by reflexivity.
    rewrite <- !app_assoc. cbn [app].
    rewrite (version_digits _ _ 13 _ StRequestVersionMajor2 StRequestVersionMajor3 StRequestVersionPeriod StRequestVersionMinor1 StRequestVersionMinor2 StRequestVersionMinor3 StRequestVersionCr StInitialEnd) by (assumption || (left; repeat split)).
    rewrite (aexec_eps _ _ _ (A StInitialEnd 0 0 0) _ _ [FEv EInitialFinished] (A StInitialLf 0 0 0)) by reflexivity.
    rewrite (hkeep StInitialLf 10 [] StHeaderCr2) by reflexivity.
    rewrite head_headers by assumption. f_equal. rewrite ?app_nil_r, <- !app_assoc. reflexivity.
  Qed.

  Lemma reason_more u : forall l r, Forall (fun b : byte => 32 <= b /\ b <> 127) u ->
    run (A StResponseStatus2 0 0 0) l (u ++ 13 :: r) = run (A StInitialEnd 0 0 0) (l ++ map (FByte KStatus) u) r.
  Proof.
    induction u as [|b u IH]; intros l r F; cbn [app map].
    - now rewrite (hkeep StResponseStatus2 13 [] StInitialEnd) by reflexivity.
    - inversion F as [|? ? F1 F2]; subst.
      assert (Hb : is_status_byte b = true).
      { unfold is_status_byte. apply andb_true_iff. split; [apply N.ltb_lt; unfold byte in *; lia|].
        apply negb_true_iff, N.eqb_neq. apply F1. }
      rewrite (hkeep StResponseStatus2 b [FByte KStatus b] StResponseStatus2) by
        (try reflexivity; cbn [abyte_raw a_st]; unfold a_status2; now rewrite Hb).
      rewrite IH by assumption. now rewrite <- app_assoc.
  Qed.

  Lemma reason_bytes u l r : u <> [] -> Forall (fun b : byte => 32 <= b /\ b <> 127) u ->
    run (A StResponseStatus1 0 0 0) l (u ++ 13 :: r) = run (A StInitialEnd 0 0 0) (l ++ map (FByte KStatus) u) r.
  Proof.
    intros NE F. destruct u as [|b u]; [congruence|]. inversion F as [|? ? F1 F2]; subst. cbn [app].
    assert (Hb : is_status_byte b = true).
    { unfold is_status_byte. apply andb_true_iff. split; [apply N.ltb_lt; unfold byte in *; lia|].
      apply negb_true_iff, N.eqb_neq. apply F1. }
    rewrite (hkeep StResponseStatus1 b [FByte KStatus b] StResponseStatus2) by
      (try reflexivity; cbn [abyte_raw a_st]; unfold a_status2; now rewrite Hb).
    rewrite reason_more by assumption. now rewrite <- app_assoc.
  Qed.

  Lemma code_bytes c l r : List.length c = 3%nat -> Forall digit c ->
    run (A StResponseStatusCode1 0 0 0) l (c ++ 32 :: r) =
    run (A StResponseStatus1 0 0 0) (l ++ [FEv (EStatusCode (decimal c))]) r.
  Proof.
    intros L F. destruct c as [|x [|y [|z [|? ?]]]]; try discriminate. clear L.
    repeat match goal with H : Forall _ (_ :: _) |- _ => inversion H; clear H; subst end.
    rewrite decimal3. cbn [app].
    repeat (rewrite aexec_byte by reflexivity; unfold_a; rewrite ?digit_is by assumption; ground; cbv iota; unfold_a;
            rewrite ?app_nil_r).
    unfold digit, byte in *.
    assert (E1 : m14 (0 + (x - 48) * 100) = (x - 48) * 100)
      by (unfold m14; change (2 ^ 14) with 16384; rewrite N.mod_small; lia).
    assert (E2 : m14 ((x - 48) * 100 + (y - 48) * 10) = (x - 48) * 100 + (y - 48) * 10)
      by (unfold m14; change (2 ^ 14) with 16384; rewrite N.mod_small; lia).
    assert (E3 : m14 ((x - 48) * 100 + (y - 48) * 10 + (z - 48) * 1) = ((x - 48) * 10 + (y - 48)) * 10 + (z - 48))
      by (unfold m14; change (2 ^ 14) with 16384; rewrite N.mod_small; lia).
    rewrite E1, E2, E3. reflexivity.
  Qed.

  Lemma response_exec q r : wf_response q ->
    run (A StStripDetect 0 0 0) [] (render_response q ++ r) = ADone (seen_response q) (A StFinished 0 0 0) r.
  Proof.
    intros (B & (V1 & V2 & V3 & V4) & C1 & C2 & R1 & R2 & Hs).
    unfold render_response, seen_response, render_version, seen_version, crlf.
    rewrite <- !app_assoc. cbn [app]. rewrite head_blank by assumption.
    change (bs "HTTP/") with [72; 84; 84; 80; 47]. cbn [app].
    rewrite (hkeep StStripDetect 72 [] StDetect2) by reflexivity.
    rewrite (hkeep StDetect2 84 [] StDetect3) by reflexivity.
    rewrite (hkeep StDetect3 84 [] StDetect4) by reflexivity.
    rewrite (hkeep StDetect4 80 [] StDetect5) by reflexivity.
    rewrite (hkeep StDetect5 47 [] StResponseVersionMajor1) by reflexivity.
    rewrite <- !app_assoc. cbn [app].
    rewrite (version_digits _ _ 32 _ StResponseVersionMajor2 StResponseVersionMajor3 StResponseVersionPeriod StResponseVersionMinor1 StResponseVersionMinor2 StResponseVersionMinor3 StResponseVersionSpace StResponseStatusCode1) by (assumption || (right; repeat split)).
    rewrite <- ?app_assoc. cbn [app].
    rewrite code_bytes, reason_bytes by assumption.
    rewrite (aexec_eps _ _ _ (A StInitialEnd 0 0 0) _ _ [FEv EInitialFinished] (A StInitialLf 0 0 0)) by reflexivity.
    rewrite (hkeep StInitialLf 10 [] StHeaderCr2) by reflexivity.
    rewrite head_headers by assumption. f_equal. rewrite ?app_nil_r, <- !app_assoc. reflexivity.
  Qed.
End Head.

Lemma strip_blank w r : blank w -> strip (w ++ r) = strip r.
Proof.
  induction w as [|b w IH]; intros F; [reflexivity|]. inversion F as [|? ? F1 F2]; subst.
  cbn [app strip]. rewrite IH by assumption. destruct F1 as [-> |[-> |[-> | ->]]]; reflexivity.
Qed.

Lemma request_round h q req tail segs :
  wf_request req -> List.concat segs = render_request req ++ tail ->
  hd 0 (q_method req) <> 72 \/ (9 <= List.length (strip (hd [] segs)))%nat ->
  exists p' log, feed h (init_head q) segs = (p', log, tail, OFinished) /\ flat log = seen_request req.
Proof.
  intros W E Hm.
  assert (NE : segs <> []).
  { intros ->. cbn in E. symmetry in E. apply app_eq_nil in E. destruct E as [E _].
    unfold render_request in E. apply app_eq_nil in E. destruct E as [_ E].
    apply app_eq_nil in E. now destruct W as (_ & N & _). }
  unfold feed. rewrite (client_no_clen h) by (reflexivity || discriminate).
  edestruct (feed_exact (no_clen h) (fun _ => None) (init_head q) segs) as (p' & log & F & L & _);
    [reflexivity| |assumption|discriminate| | |].
  - constructor; try reflexivity; try discriminate.
    destruct Hm as [Hm|Hm]; [left|right; left; split; [reflexivity|assumption]].
    rewrite <- concat_hd, E.
    change (hok (strip (render_request req ++ tail)) = true).
    unfold render_request. rewrite <- !app_assoc. destruct W as (B & M1 & M2 & _).
    rewrite strip_blank by assumption. destruct (q_method req) as [|b m]; [congruence|].
    inversion M2 as [|? ? M3 M4]; subst. cbn [app strip].
    replace ((b =? 13) || (b =? 10) || (b =? 9) || (b =? 32)) with false.
    { cbn [hok hd] in *. apply N.eqb_neq in Hm. now rewrite Hm. }
    symmetry. rewrite !orb_false_iff, !N.eqb_neq. unfold byte in *. lia.
  - rewrite E. apply (request_exec None (fun _ => None)). exact W.
  - reflexivity.
  - unfold feed in F. eauto.
Qed.

Lemma response_round h q res tail segs :
  wf_response res -> List.concat segs = render_response res ++ tail ->
  exists p' log, feed h (init_head q) segs = (p', log, tail, OFinished) /\ flat log = seen_response res.
Proof.
  intros W E.
  assert (NE : segs <> []).
  { intros ->. cbn in E. symmetry in E. apply app_eq_nil in E. destruct E as [E _].
    unfold render_response in E. apply app_eq_nil in E. destruct E as [_ E].
    apply app_eq_nil in E. destruct E as [E _]. discriminate. }
  unfold feed. rewrite (client_no_clen h) by (reflexivity || discriminate).
  edestruct (feed_exact (no_clen h) (fun _ => None) (init_head q) segs) as (p' & log & F & L & _);
    [reflexivity| |assumption|discriminate| | |].
  - constructor; try reflexivity; try discriminate. left.
    rewrite <- concat_hd, E.
    change (hok (strip (render_response res ++ tail)) = true).
    unfold render_response. rewrite <- !app_assoc. destruct W as (B & _).
    rewrite strip_blank by assumption. unfold render_version. rewrite <- app_assoc.
    match goal with |- hok (strip (_ ++ ?x)) = true => destruct x; reflexivity end.
  - rewrite E. apply (response_exec None (fun _ => None)). exact W.
  - reflexivity.
  - unfold feed in F. eauto.
Qed.
