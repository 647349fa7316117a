(* From one step to whole runs: one resume call, and a client feeding a stream
   in arbitrary pieces, agree with the automaton of Http1Sem.v. *)

From Coq Require Import NArith List Bool Arith String Lia.
From Verif Require Import Bytes ByteStream Http1Model Http1Base Http1Wp Http1Term Http1Sem Http1Sim
     Http1Step Http1Misc Http1Spec.
Import ListNotations.
Local Open Scope N_scope.

(* ------------------------------------------------------------------ *)
(* The automaton on concatenated input                                  *)
(* ------------------------------------------------------------------ *)

Section Concat.
  Variables (t : ptype) (bd : option (list byte)) (clen : list fevent -> option N).

  Lemma aclose_idem l a l1 a1 :
    aclose 3 t clen l a = (l1, a1) -> aeps t clen l1 a1 = None.
  Proof.
    destruct a as [s lo up len]. destruct s; cbn [aclose aeps a_st];
      try (intros [= <- <-]; reflexivity);
      destruct t; cbn [nrm Http1Sem.st a_st a_lo a_up a_len aclose aeps];
      try (intros [= <- <-]; reflexivity);
      destruct (clen _); cbn [a_st]; intros [= <- <-]; reflexivity.
  Qed.

  Lemma aclose_none n l a : aeps t clen l a = None -> aclose n t clen l a = (l, a).
  Proof. destruct n; cbn; [reflexivity|]. now intros ->. Qed.

  Lemma aexec_app s : forall a l u,
    aexec t bd clen a l (s ++ u) =
    match aexec t bd clen a l s with
    | ADone l1 a1 rest => aexec t bd clen a1 l1 (rest ++ u)
    | AFail l1 e rest => AFail l1 e (rest ++ u)
    | AFlt l1 => AFlt l1
    end.
  Proof.
    induction s as [|b s IH]; intros a l u.
    - cbn [app]. destruct (aclose 3 t clen l a) as [l1 a1] eqn:E.
      assert (N : aeps t clen l1 a1 = None) by now apply aclose_idem in E.
      assert (C : aclose 3 t clen l1 a1 = (l1, a1)) by now apply aclose_none.
      assert (X : aexec t bd clen a l [] =
                  match a_st a1 with StDead => AFail l1 ErDead [] | _ => ADone l1 a1 [] end).
      { unfold aexec. rewrite E. destruct (a_st a1); reflexivity. }
      rewrite X. rewrite (aexec_close t bd clen a l a1 l1) by congruence.
      destruct (a_st a1) eqn:S; try reflexivity.
      destruct u; unfold aexec; fold aexec; rewrite C, S; reflexivity.
    - cbn [app]. unfold aexec; fold aexec.
      destruct (aclose 3 t clen l a) as [l1 a1] eqn:E.
      assert (N : aeps t clen l1 a1 = None) by now apply aclose_idem in E.
      assert (C : aclose 3 t clen l1 a1 = (l1, a1)) by now apply aclose_none.
      assert (X : forall r : aout, a_st a1 = StFinished ->
        ADone l1 a1 (b :: s ++ u) = aexec t bd clen a1 l1 ((b :: s) ++ u)).
      { intros _ S. cbn [app]. unfold aexec; fold aexec. now rewrite C, S. }
      destruct (a_st a1) eqn:S; try reflexivity; try (now apply X; [exact (AFlt [])|]).
      all: destruct (abyte t bd a1 b); try reflexivity; apply IH.
  Qed.
End Concat.

Section Run.
  Variables (h : handler) (clen : list fevent -> option N).
  Hypothesis Hclen : forall l, h_clen h l = clen (flat l).

(* ------------------------------------------------------------------ *)
(* The loop                                                             *)
(* ------------------------------------------------------------------ *)

Lemma inv_bd m m' : boundary (mp m') = boundary (mp m) -> parser_type (mp m') = parser_type (mp m) ->
  inv m -> parser_type (mp m') = Multipart -> bdok (boundary (mp m')).
Proof. intros E1 E2 I H. rewrite E1. apply (inv_bdok _ I). congruence. Qed.

Definition loop_post (t : list byte) (m m' : mach) (o : outcome) : Prop :=
  match o with
  | Continue => False
  | Exit (SFinished _) =>
      sem clen m = ADone (flat (ml m')) (alpha (mp m')) (crest (mc m')) /\
      state_fn (mp m') = StFinished
  | Exit _ =>
      sem clen m = psem clen (mp m') (flat (ml m')) (crest (mc m')) /\
      vstate (parser_type (mp m')) (state_fn (mp m')) = true /\
      sdok (state_fn (mp m')) (crest (mc m') ++ t) = true /\
      state_fn (mp m') <> StDetect1
  | Fail e => exists L e' R, sem clen m = AFail L e' R /\ same_kind e e' /\ nearly (flat (ml m')) L /\
      placed e (blen (mp m')) (crest (mc m')) R
  | Faulted f => exists L, sem clen m = AFlt L /\ nearly (flat (ml m')) L
  end.

Lemma sem_finished m : inv m -> state_fn (mp m) = StFinished ->
  sem clen m = ADone (flat (ml m)) (alpha (mp m)) (crest (mc m)).
Proof.
  intros I F. unfold sem, psem. rewrite F. unfold pend. cbn [pkind]. rewrite app_nil_r.
  assert (S : a_st (alpha (mp m)) = StFinished).
  { unfold alpha. rewrite F. now destruct (parser_type (mp m)). }
  destruct (crest (mc m)); unfold aexec; fold aexec; cbn [aclose]; unfold aeps; now rewrite S, S.
Qed.

Lemma inv_d1 m : inv m -> state_fn (mp m) = StDetect1 -> crest (mc m) <> [].
Proof. intros [_ _ D _] E. rewrite E in D. cbn [dok] in D. tauto. Qed.

Lemma loop_sim t m m' o :
  loop h m m' o -> inv m -> ready (state_fn (mp m)) (crest (mc m)) t ->
  loop_post t m m' o.
Proof.
  intros L. induction L as [m m' o R N|m m1 m' o R L IH]; intros I D.
  - pose proof (wp_run _ _ (run_fn_sim h clen Hclen m I) _ _ R) as S.
    assert (DD : cslice (mc m) = [] \/ detecting (state_fn (mp m)) = false).
    { destruct (detecting (state_fn (mp m))) eqn:E; [left|now right].
      apply (inv_slice _ I). now destruct (state_fn (mp m)). }
    pose proof (wp_run _ _ (run_fn_sdok h t m DD D (inv_d1 _ I)) _ _ R) as S2.
    destruct o as [|s|e|f]; cbn [sim_post loop_post sdok_post] in *; try congruence; auto.
    + destruct s; try tauto.
      destruct S as [-> F]. split; [|assumption]. now apply sem_finished.
    + unfold blen in *. now rewrite (mi_bd _ _ _ (wp_run _ _ (run_fn_misc h m) _ _ R)).
  - pose proof (wp_run _ _ (run_fn_sim h clen Hclen m I) _ _ R) as S. cbn [sim_post] in S.
    destruct S as [S I1].
    assert (DD : cslice (mc m) = [] \/ detecting (state_fn (mp m)) = false).
    { destruct (detecting (state_fn (mp m))) eqn:E; [left|now right].
      apply (inv_slice _ I). now destruct (state_fn (mp m)). }
    pose proof (wp_run _ _ (run_fn_sdok h t m DD D (inv_d1 _ I)) _ _ R) as S2. cbn [sdok_post] in S2.
    specialize (IH I1 S2). unfold loop_post in *. rewrite S. exact IH.
Qed.

(* Facts that do not need the simulation. *)
Record loop_facts (m m' : mach) (o : outcome) : Prop := {
  lf_state : state (mp m) = state_fn (mp m) -> state (mp m') = state_fn (mp m');
  lf_count : byte_count (mp m') = byte_count (mp m);
  lf_type : parser_type (mp m') = parser_type (mp m);
  lf_bd : boundary (mp m') = boundary (mp m);
  lf_suf : suf (crest (mc m)) (crest (mc m'));
  lf_pos : (cindex (mc m') + List.length (crest (mc m')) =
            cindex (mc m) + List.length (crest (mc m)))%nat;
  lf_log : pre (ml m) (ml m');
  lf_eos : forall n, o = Exit (SEos n) ->
     needs_byte (state_fn (mp m')) = true /\ crest (mc m') = [] /\ n = cindex (mc m');
  lf_cb : forall n, o = Exit (SCallback n) -> n = cindex (mc m') /\
     (cslice (mc m) = [] ->
      measure (state_fn (mp m')) (crest (mc m')) < measure (state_fn (mp m)) (crest (mc m)))%nat;
  lf_fin : forall n, o = Exit (SFinished n) -> n = cindex (mc m') /\ state_fn (mp m') = StFinished
}.

Lemma loop_facts_all m m' o : loop h m m' o -> loop_facts m m' o.
Proof.
  intros L. induction L as [m m' o R N|m m1 m' o R L IH].
  - pose proof (wp_run _ _ (run_fn_misc h m) _ _ R) as M.
    pose proof (wp_run _ _ (run_fn_step h m) _ _ R) as S. destruct M. constructor; auto.
    + intros n ->. cbn [step_post] in S. destruct S. repeat split; auto. now apply (mi_eos n).
    + intros n ->. cbn [step_post] in S. tauto.
    + intros n ->. cbn [step_post] in S. destruct S as (S1 & S2 & ->). auto.
  - pose proof (wp_run _ _ (run_fn_misc h m) _ _ R) as M.
    pose proof (wp_run _ _ (run_fn_step h m) _ _ R) as S. cbn [step_post] in S.
    destruct M, IH as [I1 I2 I3 I4 I5 I6 I7 I8 I9 I10].
    constructor; auto; try congruence.
    + eapply suf_trans; eauto.
    + eapply pre_trans; eauto.
    + intros n E. destruct (I9 n E) as [-> I9']. split; [reflexivity|]. intros _.
      (* a continuing step already decreases the measure *)
      pose proof (loop_inv h (fun _ => True) (fun _ _ _ _ => I) _ _ _ L I) as (m2 & _ & R2 & _ & M2 & _).
      pose proof (wp_run _ _ (run_fn_step h m2) _ _ R2) as S2. rewrite E in S2. cbn [step_post] in S2. lia.
Qed.

Lemma loop_len m m' o : loop h m m' o -> inv m -> parser_type (mp m) = UrlEncoded ->
  plength (mp m') = plength (mp m).
Proof.
  intros L. induction L as [m m' o R N|m m1 m' o R L IH]; intros I T.
  - pose proof (wp_run _ _ (run_fn_misc h m) _ _ R) as M. apply (mi_len _ _ _ M T).
    rewrite <- T. apply (inv_state _ I).
  - pose proof (wp_run _ _ (run_fn_misc h m) _ _ R) as M.
    pose proof (wp_run _ _ (run_fn_sim h clen Hclen m I) _ _ R) as [S I1].
    rewrite IH; auto.
    + apply (mi_len _ _ _ M T). rewrite <- T. apply (inv_state _ I).
    + rewrite (mi_type _ _ _ M). exact T.
Qed.

(* ------------------------------------------------------------------ *)
(* One call of resume                                                   *)
(* ------------------------------------------------------------------ *)

(* Meaning of a URL-encoded parser: the input is cut at the declared length
   and the body ends there. *)
Definition usem (p : parser) (l : list fevent) (s : list byte) : aout :=
  let n := N.to_nat (plength p) in
  match psem clen p l (firstn n s) with
  | ADone l1 a1 rest =>
      match a_st a1 with
      | StFinished => ADone l1 a1 (rest ++ skipn n s)
      | _ => if (n <=? List.length s)%nat
             then ADone (l1 ++ [FEv EBodyFinished]) (A StFinished 0 0 0) (skipn n s)
             else ADone l1 a1 []
      end
  | AFail l1 e rest => AFail l1 e (rest ++ skipn n s)
  | AFlt l1 => AFlt l1
  end.

(* Meaning of a parser between two resume calls. *)
Definition rsem (p : parser) (l : list fevent) (s : list byte) : aout :=
  match parser_type p with
  | UrlEncoded => usem p l s
  | _ => psem clen p l s
  end.

Record rinv (p : parser) (s : list byte) : Prop := {
  ri_state : vstate (parser_type p) (state_fn p) = true;
  ri_sdok : sdok (state_fn p) s = true;
  ri_bdok : parser_type p = Multipart -> bdok (boundary p)
}.

(* The same, given the segment r supplied next and the input t after it. *)
Record rinv2 (p : parser) (r t : list byte) : Prop := {
  ri2_state : vstate (parser_type p) (state_fn p) = true;
  ri2_ready : ready (state_fn p) r t;
  ri2_bdok : parser_type p = Multipart -> bdok (boundary p)
}.

Lemma rinv_rinv2 p r t : rinv p (r ++ t) -> rinv2 p r t.
Proof. intros [A1 A2 A3]. constructor; auto. now left. Qed.

Lemma parse_start p s log m2 r :
  parse (fuel_of s) h (Mach p (bs_new s) log) = (m2, r) ->
  exists m' o, loop h (Mach p (bs_new s) log) m' o /\ (m2, r) = finish m' o.
Proof.
  intros E. apply (parse_loop h _ _ _ _ E).
  pose proof (parse_fuel_of h (Mach p (bs_new s) log) s (le_n _)) as F. now rewrite E in F.
Qed.

Lemma suf_skip r r' n : suf r r' -> (n + List.length r' = List.length r)%nat -> r' = skipn n r.
Proof.
  intros [x ->] L. rewrite app_length in L. assert (n = List.length x) as -> by lia.
  now rewrite skipn_app, skipn_all, Nat.sub_diag.
Qed.

(* byte_count() after the error e in n bytes, of which the automaton leaves r
   unread. *)
Definition counted (e : perror) (n : N) (p' : parser) (r : list byte) : Prop :=
  match e with
  | ErMultipartBoundary _ =>
      byte_count p' + N.of_nat (List.length r) <= n <=
      byte_count p' + N.of_nat (List.length r) + N.of_nat (pred (blen p'))
  | _ => byte_count p' + N.of_nat (List.length r) = n
  end.

Lemma counted_app e n p' r t : counted e n p' r ->
  counted e (n + N.of_nat (List.length t)) p' (r ++ t).
Proof. unfold counted. rewrite app_length. destruct e; lia. Qed.

(* The meaning of parse started by resume. *)
Definition parse_post (t : list byte) (p : parser) (log : list event) (s : list byte)
           (p' : parser) (log' : list event) (r : result) : Prop :=
  match r with
  | ROk (SEos n) =>
      n = List.length s /\ psem clen p (flat log) s = psem clen p' (flat log') [] /\
      rinv p' t /\ state_fn p' <> StDetect1 /\ needs_byte (state_fn p') = true
  | ROk (SCallback n) =>
      (n <= List.length s)%nat /\
      psem clen p (flat log) s = psem clen p' (flat log') (skipn n s) /\
      rinv p' (skipn n s ++ t) /\ state_fn p' <> StDetect1
  | ROk (SFinished n) =>
      (n <= List.length s)%nat /\
      psem clen p (flat log) s = ADone (flat log') (alpha p') (skipn n s) /\
      state_fn p' = StFinished
  | RErr e => exists L e' R, psem clen p (flat log) s = AFail L e' R /\ same_kind e e' /\ nearly (flat log') L /\
      counted e (byte_count p + N.of_nat (List.length s)) p' R
  | RFault f => exists L, psem clen p (flat log) s = AFlt L /\ nearly (flat log') L
  | RFuel => False
  end /\ parser_type p' = parser_type p /\ boundary p' = boundary p /\
  (parser_type p = UrlEncoded -> plength p' = plength p) /\
  (state p = state_fn p -> (forall f, r <> RFault f) -> state p' = state_fn p') /\
  pre log log'.

Lemma psem_count p n l s : psem clen (add_count p n) l s = psem clen p l s.
Proof. reflexivity. Qed.

Lemma start_inv p s t log : rinv2 p s t -> (state_fn p = StDetect1 -> s <> []) ->
  inv (Mach p (bs_new s) log).
Proof.
  intros [V D B] N. constructor; cbn [mp mc crest cslice bs_new]; auto.
  apply (ready_dok _ _ t); auto.
Qed.

Lemma start_sem p s log : sem clen (Mach p (bs_new s) log) = psem clen p (flat log) s.
Proof.
  unfold sem. cbn [mp mc ml crest cslice bs_new]. unfold pend.
  destruct (pkind (state_fn p)); cbn [map]; now rewrite app_nil_r.
Qed.

Lemma parse_sim p s log t p' log' c' r :
  rinv2 p s t -> (state_fn p = StDetect1 -> s <> []) ->
  parse (fuel_of s) h (Mach p (bs_new s) log) = (Mach p' c' log', r) ->
  parse_post t p log s p' log' r.
Proof.
  intros I N E. destruct (parse_start _ _ _ _ _ E) as (m & o & L & F).
  pose proof (start_inv _ _ _ log I N) as I0.
  pose proof (loop_sim t _ _ _ L I0 (ri2_ready _ _ _ I)) as S. unfold loop_post in S.
  rewrite start_sem in S.
  pose proof (loop_facts_all _ _ _ L) as LF.
  pose proof (loop_len _ _ _ L I0) as LL. cbn [mp] in LL.
  destruct LF as [L1 L2 L3 L4 L5 L6 L7 L8 L9 L10]. cbn [mp mc ml crest bs_new cslice] in *.
  unfold cindex in L6 at 2. cbn [cmark cslice bs_new List.length] in L6. rewrite Nat.add_0_l in L6.
  destruct I as [V D B].
  unfold finish in F. destruct o as [|x|e|f]; [easy| | |].
  - assert (Sk : crest (mc m) = skipn (cindex (mc m)) s) by (apply suf_skip; [assumption|lia]).
    destruct x as [n|n|n]; injection F as -> -> -> ->; unfold parse_post, with_p; cbn [mp mc ml];
      cbn [add_count with_state_only parser_type boundary plength state state_fn].
    + destruct (L9 n eq_refl) as [-> L9'], S as (S1 & S2 & S3 & S4).
      repeat split; auto; try congruence; cbn [add_count parser_type boundary state_fn]; try congruence.
      * lia.
      * rewrite psem_count, <- Sk. exact S1.
      * intros T. rewrite L4. apply B. congruence.
    + destruct (L8 n eq_refl) as (LN & L8' & ->), S as (S1 & S2 & S3 & S4). rewrite L8' in *.
      repeat split; auto; try congruence; cbn [add_count parser_type boundary state_fn]; try congruence.
      * cbn [List.length] in L6. lia.
      * intros T. rewrite L4. apply B. congruence.
    + destruct (L10 n eq_refl) as [-> L10'], S as (S1 & S2).
      repeat split; auto; try congruence.
      * lia.
      * rewrite <- Sk. exact S1.
  - injection F as -> -> -> ->. unfold parse_post, with_p. cbn [mp ml].
    split; [|repeat split; auto].
    destruct S as (x & e' & R & S1 & S2 & S3 & S4). exists x, e', R. repeat split; auto.
    unfold counted, placed in *. cbn [p_set_state add_count byte_count].
    unfold blen in *. cbn [p_set_state add_count boundary]. rewrite L2. destruct e; lia.
  - injection F as <- ->. unfold parse_post. cbn [mp ml] in *.
    repeat split; auto.
Qed.


Lemma skipn_app_le (s t : list byte) n : (n <= List.length s)%nat -> skipn n (s ++ t) = skipn n s ++ t.
Proof. intros L. rewrite skipn_app. now replace (n - List.length s)%nat with 0%nat by lia. Qed.

Lemma psem_app p l s t :
  psem clen p l (s ++ t) =
  match psem clen p l s with
  | ADone l1 a1 rest => aexec (parser_type p) (boundary p) clen a1 l1 (rest ++ t)
  | AFail l1 e rest => AFail l1 e (rest ++ t)
  | AFlt l1 => AFlt l1
  end.
Proof. apply aexec_app. Qed.

Lemma aexec_finished ty bd a l s :
  a_st a = StFinished -> aexec ty bd clen a l s = ADone l a s.
Proof. intros E. destruct s; unfold aexec; fold aexec; cbn [aclose]; unfold aeps; now rewrite E, E. Qed.

(* Equal meanings on a segment stay equal when the segment is extended. *)
Lemma psem_ext p l s p' l' s' t :
  parser_type p' = parser_type p -> boundary p' = boundary p ->
  psem clen p l s = psem clen p' l' s' -> psem clen p l (s ++ t) = psem clen p' l' (s' ++ t).
Proof. intros T B E. rewrite !psem_app, E, T, B. reflexivity. Qed.

Lemma alpha_st p : a_st (alpha p) = state_fn p.
Proof. unfold alpha. now destruct (parser_type p). Qed.

Definition resume_post (t : list byte) (p : parser) (log : list event) (s : list byte)
           (p' : parser) (log' : list event) (r : result) : Prop :=
  match r with
  | ROk (SEos n) =>
      n = List.length s /\ rsem p (flat log) (s ++ t) = rsem p' (flat log') t /\
      rinv p' t /\ state_fn p' <> StDetect1 /\ needs_byte (state_fn p') = true /\
      (parser_type p' = UrlEncoded -> plength p' <> 0)
  | ROk (SCallback n) =>
      (n <= List.length s)%nat /\
      rsem p (flat log) (s ++ t) = rsem p' (flat log') (skipn n s ++ t) /\
      rinv p' (skipn n s ++ t) /\ state_fn p' <> StDetect1
  | ROk (SFinished n) =>
      (n <= List.length s)%nat /\
      rsem p (flat log) (s ++ t) = ADone (flat log') (alpha p') (skipn n s ++ t) /\
      state_fn p' = StFinished
  | RErr e => exists L e' R, rsem p (flat log) (s ++ t) = AFail L e' R /\ same_kind e e' /\ nearly (flat log') L /\
      counted e (byte_count p + N.of_nat (List.length (s ++ t))) p' R
  | RFault f => exists L, rsem p (flat log) (s ++ t) = AFlt L /\ nearly (flat log') L
  | RFuel => False
  end /\ parser_type p' = parser_type p /\ boundary p' = boundary p /\
  (state p = state_fn p -> (forall f, r <> RFault f) -> state p' = state_fn p') /\
  pre log log'.

Lemma resume_sim_plain p s log t p' log' r :
  parser_type p <> UrlEncoded ->
  rinv2 p s t -> (state_fn p = StDetect1 -> s <> []) ->
  resume h p log s = (p', log', r) -> resume_post t p log s p' log' r.
Proof.
  intros T I N E.
  assert (E' : (let '(m, r) := parse (fuel_of s) h (Mach p (bs_new s) log) in (mp m, ml m, r)) = (p', log', r)).
  { unfold resume in E. now destruct (parser_type p). }
  destruct (parse (fuel_of s) h (Mach p (bs_new s) log)) as [m r0] eqn:P. destruct m as [p0 c0 l0].
  cbn [mp ml] in E'. injection E' as -> -> ->.
  destruct (parse_sim _ _ _ t _ _ _ _ I N P) as (S & T1 & B1 & _ & St & Pr).
  assert (RS : forall q l x, parser_type q = parser_type p -> rsem q l x = psem clen q l x).
  { intros q l x Q. unfold rsem. rewrite Q. now destruct (parser_type p). }
  unfold resume_post. split; [|auto]. rewrite (RS p) by reflexivity.
  destruct r as [[n|n|n]|e|f|]; try (exact S).
  - destruct S as (S1 & S2 & S3 & S4). repeat split; auto; try apply S3.
    rewrite RS by assumption. now apply psem_ext.
  - destruct S as (S1 & S2 & S3 & S4 & S5). repeat split; auto; try apply S3; try congruence.
    rewrite RS by assumption. change t with ([] ++ t) at 2. now apply psem_ext.
  - destruct S as (S1 & S2 & S3). repeat split; auto.
    rewrite psem_app, S2. apply aexec_finished. now rewrite alpha_st.
  - destruct S as (x & e' & R & S1 & S2 & S3 & S4). exists x, e', (R ++ t). rewrite psem_app, S1. repeat split; auto.
    rewrite app_length, Nat2N.inj_add, N.add_assoc. now apply counted_app.
  - destruct S as (x & S1 & S2). exists x. now rewrite psem_app, S1.
Qed.

(* Truncation of the input at the declared length. *)
Lemma cut_eq (n : N) (s : list byte) :
  (if n <? N.of_nat (List.length s) then firstn (N.to_nat n) s else s) = firstn (N.to_nat n) s.
Proof.
  destruct (N.ltb_spec n (N.of_nat (List.length s))); [reflexivity|].
  now rewrite firstn_all2 by lia.
Qed.

Lemma body_finish c log p fuel m2 r2 :
  state_fn p = StBodyFinished -> parser_type p = UrlEncoded ->
  parse (S (S fuel)) h (Mach p c log) = (m2, r2) ->
  ml m2 = log ++ [EBodyFinished] /\ state_fn (mp m2) = StFinished /\
  state (mp m2) = StFinished /\
  parser_type (mp m2) = UrlEncoded /\ boundary (mp m2) = boundary p /\ plength (mp m2) = plength p /\
  (r2 = ROk (SFinished (cindex c)) \/ r2 = ROk (SCallback (cindex c))).
Proof.
  intros F T E. cbn [parse] in E. unfold run_fn at 1 in E. cbn [mp] in E. rewrite F in E.
  unfold body_finished, callback_transition_data, callback_data, call, transition, remark, set_state, with_p, with_c,
    exit_callback in E. cbn [mp mc ml] in E.
  destruct (h_ret h log EBodyFinished); cbn [mp mc ml] in E.
  - unfold run_fn in E. cbn [mp state_fn p_set_state] in E.
    unfold finished, exit_finished in E. cbn [mp mc ml with_p] in E. injection E as <- <-.
    cbn [ml mp state_fn state parser_type boundary plength with_state_only add_count p_set_state].
    repeat split; auto. left. unfold cindex, bs_mark. cbn [cmark cslice cindex List.length].
    now rewrite Nat.add_0_r.
  - injection E as <- <-.
    cbn [ml mp state_fn state parser_type boundary plength with_state_only add_count p_set_state].
    repeat split; auto.
Qed.

Lemma parse_index p s log m2 r :
  parse (fuel_of s) h (Mach p (bs_new s) log) = (m2, r) ->
  match r with
  | ROk (SEos n) | ROk (SCallback n) | ROk (SFinished n) => cindex (mc m2) = n
  | _ => True
  end.
Proof.
  intros E. destruct (parse_start _ _ _ _ _ E) as (m & o & L & F).
  destruct (loop_facts_all _ _ _ L) as [_ _ _ _ _ _ _ L8 L9 L10].
  destruct o as [|[n|n|n]|e|f]; injection F as -> ->; try exact I; cbn [mc with_p].
  - now destruct (L9 n eq_refl).
  - now destruct (L8 n eq_refl) as (_ & _ & ->).
  - now destruct (L10 n eq_refl).
Qed.

Lemma url_sdok st x : vstate UrlEncoded st = true -> sdok st x = true.
Proof. now destruct st. Qed.

Lemma url_rinv p x y u v : parser_type p = UrlEncoded -> rinv2 p x y -> rinv2 p u v.
Proof.
  intros T [V D B]. constructor; auto. left. apply url_sdok. now rewrite <- T.
Qed.

Lemma psem_needs p l : needs_byte (state_fn p) = true -> psem clen p l [] = ADone l (alpha p) [].
Proof. intros N. apply aexec_nil. now rewrite alpha_st. Qed.

Lemma psem_with_length p n l s : parser_type p = UrlEncoded ->
  psem clen (with_length p n) l s = psem clen p l s.
Proof. intros T. unfold psem, alpha. cbn [with_length parser_type boundary state_fn plength]. now rewrite T. Qed.

Lemma resume_sim_url p s log t p' log' r :
  parser_type p = UrlEncoded ->
  rinv2 p s t -> resume h p log s = (p', log', r) -> resume_post t p log s p' log' r.
Proof.
  intros T I E. unfold resume in E. rewrite T in E. cbv zeta in E. rewrite cut_eq in E.
  set (n := N.to_nat (plength p)) in *. set (c := firstn n s) in *.
  destruct (parse (fuel_of c) h (Mach p (bs_new c) log)) as [[p0 c0 l0] r0] eqn:P.
  assert (I' : rinv2 p c t) by now apply (url_rinv p s t).
  assert (N1 : state_fn p = StDetect1 -> c <> []).
  { intros X. destruct I as [V _ _]. rewrite X, T in V. discriminate. }
  destruct (parse_sim _ _ _ t _ _ _ _ I' N1 P) as (S & T1 & B1 & Le & St & Pr).
  specialize (Le T).
  assert (Hc : List.length c = Nat.min n (List.length s)) by apply firstn_length.
  assert (Hf : firstn n (s ++ t) = c ++ firstn (n - List.length s) t) by apply firstn_app.
  assert (PS : psem clen p (flat log) (firstn n (s ++ t)) =
    match psem clen p (flat log) c with
    | ADone l1 a1 rest => aexec UrlEncoded (boundary p) clen a1 l1 (rest ++ firstn (n - List.length s) t)
    | AFail l1 e rest => AFail l1 e (rest ++ firstn (n - List.length s) t)
    | AFlt l1 => AFlt l1 end).
  { rewrite Hf, psem_app, T. reflexivity. }
  assert (RS : rsem p (flat log) (s ++ t) = usem p (flat log) (s ++ t)).
  { unfold rsem. now rewrite T. }
  assert (LE : plength p0 = N.of_nat n) by (subst n; lia).
  destruct r0 as [[n1|n1|n1]|e|f|].
  - (* Callback *)
    destruct S as (S1 & S2 & S3 & S4). cbn [mp ml] in E.
    destruct (N.ltb_spec (plength p0) (N.of_nat n1)) as [X|X]; [exfalso; lia|].
    injection E as <- <- <-. unfold resume_post.
    split; [|cbn [with_length parser_type boundary state state_fn]; repeat split; auto; congruence].
    repeat split.
    + lia.
    + rewrite RS. unfold rsem. cbn [with_length parser_type]. rewrite T1, T.
      unfold usem. fold n. rewrite PS. cbn [plength with_length].
      replace (N.to_nat (plength p0 - N.of_nat n1)) with (n - n1)%nat by lia.
      rewrite psem_with_length by congruence.
      assert (Q : firstn (n - n1) (skipn n1 s ++ t) = skipn n1 c ++ firstn (n - List.length s) t).
      { rewrite firstn_app, skipn_length.
        replace (n - n1 - (List.length s - n1))%nat with (n - List.length s)%nat by lia.
        f_equal. unfold c. now rewrite skipn_firstn_comm. }
      rewrite Q, psem_app, S2, T1, T, B1.
      assert (Q2 : skipn (n - n1) (skipn n1 s ++ t) = skipn n (s ++ t)).
      { rewrite !skipn_app, skipn_length, skipn_plus.
        replace (n - n1 + n1)%nat with n by lia.
        now replace (n - n1 - (List.length s - n1))%nat with (n - List.length s)%nat by lia. }
      rewrite Q2.
      destruct (psem clen p0 (flat l0) (skipn n1 c)) as [l1 a1 rest|l1 e rest|l1] eqn:X1; try reflexivity.
      destruct (aexec _ _ _ a1 l1 _) as [l2 a2 rest2|l2 e rest2|l2]; try reflexivity.
      rewrite !app_length, skipn_length.
      replace (n - n1 <=? List.length s - n1 + List.length t)%nat with (n <=? List.length s + List.length t)%nat
        by (destruct (Nat.leb_spec n (List.length s + List.length t)), (Nat.leb_spec (n - n1) (List.length s - n1 + List.length t)); lia).
      reflexivity.
    + apply S3.
    + apply url_sdok. cbn [with_length parser_type state_fn]. rewrite <- T, <- T1. apply S3.
    + cbn [with_length parser_type]. congruence.
    + exact S4.
  - (* Eos *)
    destruct S as (S1 & S2 & S3 & S4 & S5). cbn [mp ml] in E. subst n1.
    destruct (N.ltb_spec (plength p0) (N.of_nat (List.length c))) as [X|X]; [exfalso; lia|].
    rewrite psem_needs in S2 by assumption.
    assert (NF : a_st (alpha p0) <> StFinished).
    { rewrite alpha_st. intros Q. rewrite Q in S5. discriminate. }
    assert (M : forall A (x y : A), match a_st (alpha p0) with StFinished => x | _ => y end = y).
    { intros A x y. destruct (a_st (alpha p0)); congruence. }
    destruct (N.eqb_spec (plength p0 - N.of_nat (List.length c)) 0) as [Z|Z].
    + (* the body is complete *)
      destruct (parse _ h (with_p _ _)) as [m2 r2] eqn:P2 in E. injection E as <- <- <-.
      pose proof (parse_index _ _ _ _ _ P) as Ix. cbn [mc] in Ix.
      replace (fuel_of c) with (Datatypes.S (Datatypes.S (fuel_of c - 2))) in P2 by (unfold fuel_of; lia).
      apply body_finish in P2; [|reflexivity|now cbn [with_p mp p_set_state parser_type]; congruence].
      cbn [with_p mp mc ml p_set_state boundary plength] in P2.
      destruct P2 as (Q1 & Q2 & Q3 & Q4 & Q5 & Q6 & Q7).
      assert (Nn : (n <= List.length s)%nat) by lia.
      assert (Nc : List.length c = n) by lia.
      assert (US : usem p (flat log) (s ++ t) =
                   ADone (flat l0 ++ [FEv EBodyFinished]) (A StFinished 0 0 0) (skipn n s ++ t)).
      { unfold usem. fold n. rewrite PS, S2. replace (n - List.length s)%nat with 0%nat by lia.
        cbn [firstn app]. rewrite aexec_nil by (rewrite alpha_st; assumption).
        rewrite M. rewrite app_length.
        destruct (Nat.leb_spec n (List.length s + List.length t)); [|lia].
        now rewrite skipn_app_le by lia. }
      assert (Fl : flat (ml m2) = flat l0 ++ [FEv EBodyFinished]) by now rewrite Q1, flat_app.
      assert (Al : alpha (mp m2) = A StFinished 0 0 0).
      { unfold alpha. now rewrite Q4, Q2. }
      unfold resume_post. split.
      2:{ repeat split; try congruence. rewrite Q1. eapply pre_trans; [exact Pr|apply pre_app]. }
      rewrite RS, US, <- Fl, Ix, Nc in *.
      destruct Q7 as [-> | ->].
      * repeat split; [lia|now rewrite Al|assumption].
      * repeat split.
        -- lia.
        -- unfold rsem. rewrite Q4. unfold usem. unfold psem.
           rewrite aexec_finished by now rewrite Al.
           rewrite Al. cbn [a_st]. now rewrite firstn_skipn.
        -- now rewrite Q4, Q2.
        -- now rewrite Q2.
        -- now rewrite Q4.
        -- now rewrite Q2.
    + injection E as <- <- <-. unfold resume_post.
      assert (Ns : (List.length s < n)%nat) by lia.
      assert (Nc : List.length c = List.length s) by lia.
      split; [|cbn [with_length parser_type boundary state state_fn]; repeat split; auto].
      cbn [with_length parser_type state_fn plength].
      repeat split.
      * assumption.
      * rewrite RS. unfold rsem. cbn [with_length parser_type]. rewrite T1, T.
        unfold usem. fold n. rewrite PS, S2. cbn [app plength with_length].
        replace (N.to_nat (plength p0 - N.of_nat (List.length c))) with (n - List.length s)%nat by lia.
        rewrite psem_with_length by congruence.
        unfold psem. rewrite T1, T, B1.
        rewrite skipn_app, (skipn_all2 s) by lia. cbn [app].
        destruct (aexec _ _ _ (alpha p0) (flat l0) _) as [l2 a2 rest2|l2 e rest2|l2]; try reflexivity.
        rewrite app_length.
        replace (n - List.length s <=? List.length t)%nat with (n <=? List.length s + List.length t)%nat
          by (destruct (Nat.leb_spec n (List.length s + List.length t)), (Nat.leb_spec (n - List.length s) (List.length t)); lia).
        reflexivity.
      * cbn [with_length parser_type state_fn]. apply S3.
      * apply url_sdok. cbn [with_length state_fn]. rewrite <- T, <- T1. apply S3.
      * cbn [with_length parser_type]. congruence.
      * assumption.
      * assumption.
      * intros _. assumption.
  - (* Finished *)
    destruct S as (S1 & S2 & S3). injection E as <- <- <-. cbn [mp ml].
    unfold resume_post. split; [|repeat split; auto].
    repeat split; [lia| |assumption].
    rewrite RS. unfold usem. fold n. rewrite PS, S2.
    rewrite aexec_finished by now rewrite alpha_st. rewrite alpha_st, S3. f_equal.
    rewrite <- app_assoc. rewrite <- skipn_app_le by lia.
    rewrite app_assoc, <- Hf, firstn_skipn. now rewrite skipn_app_le by lia.
  - destruct S as (x & e' & R & S1 & S2 & S3 & S4). injection E as <- <- <-. cbn [mp ml].
    unfold resume_post. split; [|repeat split; auto].
    exists x, e', ((R ++ firstn (n - List.length s) t) ++ skipn n (s ++ t)).
    rewrite RS. unfold usem. fold n. rewrite PS, S1. repeat split; auto.
    rewrite <- (firstn_skipn n (s ++ t)) at 1. rewrite Hf, !app_length, !Nat2N.inj_add, !N.add_assoc.
    do 2 apply counted_app. exact S4.
  - destruct S as (x & S1 & S2). injection E as <- <- <-. cbn [mp ml].
    unfold resume_post. split; [|repeat split; auto].
    exists x. rewrite RS. unfold usem. fold n. now rewrite PS, S1.
  - contradiction.
Qed.

Lemma resume_sim p s log t p' log' r :
  rinv2 p s t -> (state_fn p = StDetect1 -> s <> []) ->
  resume h p log s = (p', log', r) -> resume_post t p log s p' log' r.
Proof.
  intros I N E. destruct (parser_type p) eqn:T.
  1-3: apply resume_sim_plain; auto; congruence.
  now apply resume_sim_url.
Qed.
End Run.
