(* Clients of the head parser understand streams as the readers of Http1Cuts.v
   do, wherever the stream is cut. *)

From Coq Require Import NArith List Bool Arith String Lia.
From Verif Require Import Bytes ByteStream Http1Model Http1Base Http1Wp Http1Term Http1Spec Http1Sem
  Http1Sim Http1Step Http1Misc Http1Run Http1Client Http1Api Http1Protocol Http1Data Http1Wire
  Http1Round Http1Round2 Http1Accept Http1Parse Http1Parse2 Http1Parse4 Http1Reader Http1Reads Http1Reads2 Http1Reads3
  Http1Understood Http1Cuts.
Import ListNotations.
Local Open Scope N_scope.

(* ------------------------------------------------------------------ *)
(* Runs from the middle of a piece                                      *)
(* ------------------------------------------------------------------ *)

(* What is left of "HTTP/" in the detection states after the H. *)
Definition rem (s : pstate) : list byte :=
  match s with
  | StDetect2 => bs "TTP/"
  | StDetect3 => bs "TP/"
  | StDetect4 => bs "P/"
  | StDetect5 => bs "/"
  | _ => []
  end.

(* Result of a call or a client, given the meaning X of all of the input. *)
Definition cpost (X : aout) (p' : parser) (log' : list event) (rest : list byte) (o : ending) : Prop :=
  match o with
  | OEos => X = ADone (flat log') (alpha p') [] /\ rest = [] /\ settled p'
  | OFinished => X = ADone (flat log') (alpha p') rest /\ state_fn p' = StFinished
  | OError e => exists L e' R, X = AFail L e' R /\ same_kind e e' /\ nearly (flat log') L
  | OFault f => exists L, X = AFlt L /\ nearly (flat log') L
  | OFuel => True
  end.

Lemma cpost_client clen p log S p' log' rest o :
  cpost (rsem clen p (flat log) S) p' log' rest o <-> client_post clen p log S p' log' rest o.
Proof. destruct o; reflexivity. Qed.

Section Run.
  Variables (h : handler) (clen : list fevent -> option N).
  Hypothesis Hclen : forall l, h_clen h l = clen (flat l).

  (* The part of a call from machine state m on. *)
  Lemma loop_rest m s t m' o p' c' log' r :
    loop h m m' o -> inv m -> ready (state_fn (mp m)) (crest (mc m)) t ->
    parser_type (mp m) = Head -> suf s (crest (mc m)) ->
    (cindex (mc m) + List.length (crest (mc m)) = List.length s)%nat ->
    (Mach p' c' log', r) = finish m' o ->
    match r with
    | ROk (SEos n) =>
        n = List.length s /\ sem clen m = psem clen p' (flat log') [] /\
        rinv p' t /\ state_fn p' <> StDetect1 /\ needs_byte (state_fn p') = true
    | ROk (SCallback n) =>
        (n <= List.length s)%nat /\ sem clen m = psem clen p' (flat log') (skipn n s) /\
        rinv p' (skipn n s ++ t) /\ state_fn p' <> StDetect1
    | ROk (SFinished n) =>
        (n <= List.length s)%nat /\ sem clen m = ADone (flat log') (alpha p') (skipn n s) /\
        state_fn p' = StFinished
    | RErr e => exists L e' R, sem clen m = AFail L e' R /\ same_kind e e' /\ nearly (flat log') L
    | RFault f => exists L, sem clen m = AFlt L /\ nearly (flat log') L
    | RFuel => False
    end /\ parser_type p' = Head /\ boundary p' = boundary (mp m) /\
    (state (mp m) = state_fn (mp m) -> (forall f, r <> RFault f) -> state p' = state_fn p').
  Proof.
    intros L I0 D HT SU PO F.
    pose proof (loop_sim h clen Hclen t _ _ _ L I0 D) as S. unfold loop_post in S.
    pose proof (loop_facts_all _ _ _ _ L) as LF.
    destruct LF as [L1 L2 L3 L4 L5 L6 L7 L8 L9 L10].
    unfold finish in F. destruct o as [|x|e|f]; [easy| | |].
    - assert (Sk : crest (mc m') = skipn (cindex (mc m')) s)
        by (apply suf_skip; [now apply suf_trans with (crest (mc m))|lia]).
      destruct x as [n|n|n]; injection F as -> -> -> ->; unfold with_p; cbn [mp mc ml];
        cbn [add_count with_state_only parser_type boundary plength state state_fn].
      + destruct (L9 n eq_refl) as [-> L9'], S as (S1 & S2 & S3 & S4).
        repeat split; auto; try congruence; cbn [add_count parser_type boundary state_fn]; try congruence.
        * lia.
        * rewrite psem_count, <- Sk. exact S1.
      + destruct (L8 n eq_refl) as (LN & L8' & ->), S as (S1 & S2 & S3 & S4). rewrite L8' in *.
        repeat split; auto; try congruence; cbn [add_count parser_type boundary state_fn]; try congruence.
        cbn [List.length] in L6. lia.
      + destruct (L10 n eq_refl) as [-> L10'], S as (S1 & S2).
        repeat split; auto; try congruence.
        * lia.
        * rewrite <- Sk. exact S1.
    - injection F as -> -> -> ->. unfold with_p. cbn [mp ml].
      split; [destruct S as (x & e' & R & S1 & S2 & S3 & _); now exists x, e', R|].
      repeat split; auto; cbn [p_set_state add_count parser_type boundary]; congruence.
    - injection F as <- ->. cbn [mp ml] in *.
      repeat split; auto; try congruence.
  Qed.

  Lemma rsem_head p l s : parser_type p = Head -> rsem clen p l s = psem clen p l s.
  Proof. intros E. unfold rsem. now rewrite E. Qed.

  (* A client, of whose first call the part from m on is given. *)
  Lemma client_rest fuel m s more m' o0 p1 c1 log1 r p' log' rest o :
    loop h m m' o0 -> inv m -> ready (state_fn (mp m)) (crest (mc m)) (List.concat more) ->
    parser_type (mp m) = Head -> suf s (crest (mc m)) ->
    (cindex (mc m) + List.length (crest (mc m)) = List.length s)%nat ->
    (Mach p1 c1 log1, r) = finish m' o0 ->
    match r with
    | ROk (SEos n) => client fuel h p1 log1 more
    | ROk (SCallback n) => client fuel h p1 log1 (skipn n s :: more)
    | ROk (SFinished n) => (p1, log1, skipn n s ++ List.concat more, OFinished)
    | RErr e => (p1, log1, [], OError e)
    | RFault f => (p1, log1, [], OFault f)
    | RFuel => (p1, log1, [], OFuel)
    end = (p', log', rest, o) ->
    cpost (psem clen (mp m) (flat (ml m) ++ pend (state_fn (mp m)) (cslice (mc m)))
                (crest (mc m) ++ List.concat more)) p' log' rest o /\
    (state (mp m) = state_fn (mp m) -> match o with OFuel | OFault _ => True | _ => state p' = state_fn p' end).
  Proof.
    intros L I0 D HT SU PO F E.
    destruct (loop_rest _ _ _ _ _ _ _ _ _ L I0 D HT SU PO F) as (S & T1 & B1 & St).
    set (l0 := flat (ml m) ++ pend (state_fn (mp m)) (cslice (mc m))) in *.
    change (sem clen m) with (psem clen (mp m) l0 (crest (mc m))) in S.
    destruct r as [[n|n|n]|e|f|].
    - destruct S as (S1 & S2 & S3 & S4).
      assert (EX : psem clen (mp m) l0 (crest (mc m) ++ List.concat more) =
                   psem clen p1 (flat log1) (skipn n s ++ List.concat more))
        by (apply psem_ext; congruence).
      destruct (client_sim h clen Hclen fuel p1 log1 (skipn n s :: more) _ _ _ _ (rinv_rinv2 _ _ _ S3)
                  (or_intror (@not_eq_sym _ _ _ (@nil_cons _ _ _))) (fun X => match S4 X with end) E) as [C1 C2].
      split.
      + rewrite EX. rewrite <- rsem_head by assumption. apply cpost_client. exact C1.
      + intros X. apply C2. apply St; [assumption|discriminate].
    - destruct S as (S1 & S2 & S3 & S4 & S5).
      assert (EX : psem clen (mp m) l0 (crest (mc m) ++ List.concat more) =
                   psem clen p1 (flat log1) (List.concat more))
        by (change (List.concat more) with ([] ++ List.concat more) at 2; apply psem_ext; congruence).
      assert (SE : settled p1) by (split; [assumption|congruence]).
      destruct (client_sim h clen Hclen fuel p1 log1 more _ _ _ _
                  (rinv_rinv2 _ _ _ (eq_ind _ _ S3 _ (concat_hd more))) (or_introl SE)
                  (fun X => match S4 X with end) E) as [C1 C2].
      split.
      + rewrite EX. rewrite <- rsem_head by assumption. apply cpost_client. exact C1.
      + intros X. apply C2. apply St; [assumption|discriminate].
    - destruct S as (S1 & S2 & S3). injection E as <- <- <- <-. split.
      + split; [|assumption]. rewrite psem_app, S2. apply aexec_finished. now rewrite alpha_st.
      + intros X. apply St; [assumption|discriminate].
    - injection E as <- <- <- <-. destruct S as (x & e' & R & S1 & S2). split.
      + exists x, e', (R ++ List.concat more). now rewrite psem_app, S1.
      + intros X. apply St; [assumption|discriminate].
    - injection E as <- <- <- <-. destruct S as (x & S1 & S2). split; [|auto].
      exists x. now rewrite psem_app, S1.
    - contradiction.
  Qed.
End Run.

(* ------------------------------------------------------------------ *)
(* The detection states after an H                                      *)
(* ------------------------------------------------------------------ *)

Definition after_h (s : pstate) : bool :=
  match s with StDetect2 | StDetect3 | StDetect4 | StDetect5 => true | _ => false end.

(* How a run from m in such a state ends, or goes on, when "HTTP/" does not
   follow. *)
Inductive off (h : handler) (t : list byte) (m m' : mach) (o : outcome) : Prop :=
| off_eos :
    o = Exit (SEos (cindex (mc m'))) -> crest (mc m') = [] -> ml m' = ml m ->
    parser_type (mp m') = parser_type (mp m) -> boundary (mp m') = boundary (mp m) ->
    (state (mp m) = state_fn (mp m) -> state (mp m') = state_fn (mp m')) ->
    after_h (state_fn (mp m')) = true -> cmpb t (rem (state_fn (mp m'))) = false ->
    without (rem (state_fn (mp m))) (crest (mc m) ++ t) = without (rem (state_fn (mp m'))) t ->
    off h t m m' o
| off_method b y m1 :
    loop h m1 m' o -> ml m1 = ml m ->
    state_fn (mp m1) = StRequestMethod -> state (mp m1) = StRequestMethod ->
    parser_type (mp m1) = parser_type (mp m) -> boundary (mp m1) = boundary (mp m) ->
    cslice (mc m1) = [b] -> crest (mc m1) = y -> suf (crest (mc m)) y ->
    (cindex (mc m1) + List.length y = cindex (mc m) + List.length (crest (mc m)))%nat ->
    is_upper b = true ->
    without (rem (state_fn (mp m))) (crest (mc m) ++ t) = b :: y ++ t ->
    off h t m m' o
| off_wrong b z :
    o = Fail (ErMethod b) -> ml m' = ml m -> is_upper b = false ->
    without (rem (state_fn (mp m))) (crest (mc m) ++ t) = b :: z ->
    z = crest (mc m') ++ t ->
    off h t m m' o.

(* The byte that leads on from such a state, and the state it leads to. *)
Definition lead (s : pstate) : byte * pstate :=
  match s with
  | StDetect2 => (84, StDetect3)
  | StDetect3 => (84, StDetect4)
  | StDetect4 => (80, StDetect5)
  | _ => (47, StResponseVersionMajor1)
  end.

Lemma rem_lead s : after_h s = true -> rem s = fst (lead s) :: rem (snd (lead s)).
Proof. destruct s; intros H; try discriminate H; reflexivity. Qed.

Lemma run_after_h h m : after_h (state_fn (mp m)) = true -> cslice (mc m) = [] ->
  run_fn h m = detect_n m (fst (lead (state_fn (mp m)))) (snd (lead (state_fn (mp m)))).
Proof. intros H _. unfold run_fn. destruct (state_fn (mp m)); try discriminate H; reflexivity. Qed.

Lemma loop_off h t m m' o : loop h m m' o ->
  after_h (state_fn (mp m)) = true -> cslice (mc m) = [] ->
  cmpb (crest (mc m) ++ t) (rem (state_fn (mp m))) = false ->
  off h t m m' o.
Proof.
  intros L. induction L as [m m' o R N|m m1 m' o R L IH]; intros H SL C;
    rewrite (run_after_h _ _ H SL) in R; rewrite (rem_lead _ H) in C;
    destruct m as [p [cb mk sl r] l]; cbn [mp mc ml cslice crest] in *; subst sl;
    unfold detect_n, next_or_eos, bs_next, transition, remark, transition_no_remark, exit_eos, fail in R; cbn [mc crest] in R;
    destruct r as [|b r]; cbn [cbyte cmark cslice crest mp mc ml with_c app] in R.
  - injection R as <- <-. apply off_eos; cbn [mp mc ml crest]; auto. now rewrite (rem_lead _ H).
  - cbn [app cmpb] in C. destruct (b =? fst (lead (state_fn p))) eqn:E.
    { injection R as <- <-. congruence. }
    destruct (is_upper b) eqn:U.
    { injection R as <- <-. congruence. }
    injection R as <- <-. apply off_wrong with b (r ++ t); auto.
    cbn [mp mc crest app]. rewrite (rem_lead _ H). cbn [without]. now rewrite E.
  - discriminate R.
  - cbn [app cmpb] in C. destruct (b =? fst (lead (state_fn p))) eqn:E.
    { injection R as <-. cbn [andb] in C. unfold transition, remark, set_state, with_c, with_p, bs_mark in L, IH.
      cbn [mp mc ml crest cslice cbyte cindex cmark state_fn p_set_state] in L, IH.
      assert (A : after_h (snd (lead (state_fn p))) = true).
      { destruct (state_fn p); try discriminate H; try reflexivity.
        cbn [lead snd rem] in C. destruct (r ++ t); discriminate C. }
      specialize (IH A eq_refl C).
      assert (W : without (rem (state_fn p)) ((b :: r) ++ t) = without (rem (snd (lead (state_fn p)))) (r ++ t)).
      { rewrite (rem_lead _ H). cbn [app without]. now rewrite E. }
      destruct IH as [A1 A2 A3 A4 A5 A6 A7 A8 A9|b' y m2 B1 B2 B3 B4 B5 B6 B7 B8 B9 B10 B11 B12|b' z C1 C2 C3 C4 C5];
        cbn [mp mc ml crest cslice state_fn state p_set_state parser_type boundary] in *.
      - apply off_eos; auto. cbn [mp mc crest]. congruence.
      - apply off_method with b' y m2; auto; cbn [mp mc crest].
        + now apply suf_cons.
        + rewrite B10. unfold cindex. cbn [cmark cslice app List.length]. lia.
        + congruence.
      - apply off_wrong with b' z; auto. cbn [mp mc crest]. congruence. }
    destruct (is_upper b) eqn:U; [|discriminate R].
    injection R as <-. apply off_method with b r (Mach (p_set_state p StRequestMethod) (Ctx b mk ([] ++ [b]) r) l); auto.
    + cbn [mc crest]. apply suf_cons, suf_refl.
    + unfold cindex. cbn [mc cmark cslice crest app List.length]. lia.
    + cbn [mp mc crest app]. rewrite (rem_lead _ H). cbn [without]. now rewrite E.
Qed.

Section Off.
  Variables (h : handler) (clen : list fevent -> option N).
  Hypothesis Hclen : forall l, h_clen h l = clen (flat l).

  (* The meaning of w as (the rest of) a method. *)
  Definition off_sem (bd : option (list byte)) (l : list fevent) (w : list byte) : aout :=
    match w with
    | b :: _ => if is_upper b then aexec Head bd clen (A StRequestMethod 0 0 0) l w else AFail l (ErMethod b) (tl w)
    | [] => AFlt l
    end.

  Definition off_post (bd : option (list byte)) (l : list fevent) (w : list byte) (st : Prop)
             (r : parser * list event * list byte * ending) : Prop :=
    let '(p', log', rest, o) := r in
    cpost (off_sem bd l w) p' log' rest o /\
    (st -> match o with OFuel | OFault _ => True | _ => state p' = state_fn p' end).

  Definition off_client (fuel : nat) : Prop := forall p log segs,
    after_h (state_fn p) = true -> parser_type p = Head ->
    cmpb (List.concat segs) (rem (state_fn p)) = false ->
    off_post (boundary p) (flat log) (without (rem (state_fn p)) (List.concat segs)) (state p = state_fn p)
             (client fuel h p log segs).

  Lemma alpha_method p : parser_type p = Head -> state_fn p = StRequestMethod ->
    alpha p = A StRequestMethod 0 0 0.
  Proof. intros H S. unfold alpha. rewrite H, S. reflexivity. Qed.

  Lemma aexec_method bd l b r : is_upper b = true ->
    aexec Head bd clen (A StRequestMethod 0 0 0) l (b :: r) =
    aexec Head bd clen (A StRequestMethod 0 0 0) (l ++ [FByte KMethod b]) r.
  Proof.
    intros U. rewrite aexec_byte by reflexivity. unfold abyte. cbn [abyte_raw a_st]. unfold a_method. rewrite U.
    reflexivity.
  Qed.

  Lemma off_rest fuel m s more m' o0 p1 c1 log1 r :
    off_client fuel ->
    loop h m m' o0 -> after_h (state_fn (mp m)) = true -> parser_type (mp m) = Head ->
    cslice (mc m) = [] -> suf s (crest (mc m)) ->
    (cindex (mc m) + List.length (crest (mc m)) = List.length s)%nat ->
    cmpb (crest (mc m) ++ List.concat more) (rem (state_fn (mp m))) = false ->
    (Mach p1 c1 log1, r) = finish m' o0 ->
    off_post (boundary (mp m)) (flat (ml m))
      (without (rem (state_fn (mp m))) (crest (mc m) ++ List.concat more)) (state (mp m) = state_fn (mp m))
      match r with
      | ROk (SEos n) => client fuel h p1 log1 more
      | ROk (SCallback n) => client fuel h p1 log1 (skipn n s :: more)
      | ROk (SFinished n) => (p1, log1, skipn n s ++ List.concat more, OFinished)
      | RErr e => (p1, log1, [], OError e)
      | RFault f => (p1, log1, [], OFault f)
      | RFuel => (p1, log1, [], OFuel)
      end.
  Proof.
    intros IH L H T SL SU PO C F.
    destruct (loop_off h _ _ _ _ L H SL C)
      as [A1 A2 A3 A4 A5 A6 A7 A8 A9|b y m1 B1 B2 B3 B4 B5 B6 B7 B8 B9 B10 B11 B12|b z C1 C2 C3 C4 C5].
    - subst o0. cbn [finish] in F. injection F as -> -> -> ->. unfold with_p; cbn [mp mc ml].
      pose proof (IH (add_count (mp m') (cindex (mc m'))) (ml m') more) as X.
      cbn [add_count state_fn parser_type boundary state] in X.
      specialize (X A7 ltac:(congruence) A8). rewrite A9, <- A5, <- A3. unfold off_post in *.
      destruct (client fuel h _ _ more) as [[[p' log'] rest] o]. destruct X as [X1 X2]. split; [exact X1|]. intros Y. apply X2, A6, Y.
    - match goal with |- off_post _ _ _ _ ?X => destruct X as [[[p' log'] rest] o] eqn:E end. unfold off_post.
      rewrite B12. cbn [off_sem]. rewrite B11, aexec_method by exact B11.
      assert (I1 : inv m1).
      { constructor; try rewrite B3; try rewrite B5, T; try reflexivity; try discriminate; try exact I. }
      assert (R1 : ready (state_fn (mp m1)) (crest (mc m1)) (List.concat more)) by (left; rewrite B3; reflexivity).
      destruct (client_rest h clen Hclen fuel m1 s more _ _ _ _ _ _ _ _ _ _ B1 I1 R1 ltac:(congruence)
                  ltac:(rewrite B8; now apply suf_trans with (crest (mc m))) ltac:(rewrite B8; lia) F E) as [X1 X2].
      unfold psem in X1. rewrite B5, T, B6, B2, B3, B7, B8, (alpha_method (mp m1)) in X1 by congruence.
      split; [exact X1|]. intros _. apply X2. congruence.
    - subst o0. cbn [finish] in F. injection F as -> -> -> ->. unfold off_post. rewrite C4. cbn [off_sem]. rewrite C3.
      split; [|reflexivity]. unfold cpost. exists (flat (ml m)), (ErMethod b), z. split; [reflexivity|].
      split; [reflexivity|]. rewrite C2. apply nearly_refl.
  Qed.

  Lemma off_clients fuel : off_client fuel.
  Proof.
    induction fuel as [|fuel IH]; intros p log segs H T C.
    - destruct segs as [|seg more]; [now destruct (rem (state_fn p))|]. cbn [client]. unfold off_post.
      split; [exact I|auto].
    - destruct segs as [|seg more]; [now destruct (rem (state_fn p))|]. cbn [client].
      unfold resume. rewrite T. cbv iota.
      destruct (parse (fuel_of seg) h (Mach p (bs_new seg) log)) as [[p1 c1 log1] r] eqn:P.
      destruct (parse_start h _ _ _ _ _ P) as (m' & o & L & F). cbn [mp ml].
      refine (off_rest fuel (Mach p (bs_new seg) log) seg more m' o p1 c1 log1 r IH L H T eq_refl (suf_refl _) _ C F).
      reflexivity.
  Qed.

  (* A piece with the H and fewer than eight bytes after it. *)
  Lemma detect1_short p cb mk (y : list byte) l : (List.length y < 8)%nat ->
    detect1 h (Mach p (Ctx cb mk [] (72 :: y)) l) =
    (Mach (p_set_state p StDetect2) (Ctx cb (mk + 1) [] y) l, Continue).
  Proof.
    intros Y. unfold detect1, if_starts_with, bs_starts_with, bs_has_bytes. cbn [mc crest].
    destruct (9 <=? _)%nat eqn:E; [apply Nat.leb_le in E; cbn [List.length] in E; unfold byte in *; lia|].
    reflexivity.
  Qed.

  Lemma loop_first m m1 m' o : run_fn h m = (m1, Continue) -> loop h m m' o -> loop h m1 m' o.
  Proof. intros R L. destruct L as [m m' o R' N|m m2 m' o R' L]; rewrite R in R'; congruence. Qed.

  Lemma without_http s : without (bs "HTTP") (72 :: s) = without (bs "TTP") s.
  Proof. reflexivity. Qed.

  Lemma cmpb_begins : forall w s, begins w s = true \/ begins s w = true -> cmpb s w = true.
  Proof.
    induction w as [|c w IH]; intros [|b s]; try reflexivity. cbn [begins cmpb]. rewrite (N.eqb_sym b c).
    intros [E|E]; apply andb_true_iff in E; destruct E as [-> E]; cbn [andb]; auto.
  Qed.

  Lemma without_more w c : forall s, cmpb s (w ++ [c]) = false -> without (w ++ [c]) s = without w s.
  Proof.
    induction w as [|x w IH]; intros [|b s] C; try discriminate C; cbn [app without cmpb] in *.
    - destruct (b =? c); [|reflexivity]. destruct s; discriminate C.
    - destruct (b =? x); [|reflexivity]. apply IH. exact C.
  Qed.

  (* From the H on. *)
  Lemma off_shows bd b y : b = 72 -> cmpb y (bs "TTP/") = false ->
    shows (off_sem bd [] (without (bs "TTP/") y)) (head_from false (b :: y)).
  Proof.
    intros -> C. unfold head_from.
    change (begins (bs "HTTP/") (72 :: y)) with (begins (bs "TTP/") y).
    change (begins (72 :: y) (bs "HTTP/")) with (begins y (bs "TTP/")).
    destruct (begins (bs "TTP/") y) eqn:B1; [rewrite cmpb_begins in C by auto; discriminate|].
    destruct (begins y (bs "TTP/")) eqn:B2; [rewrite cmpb_begins in C by auto; discriminate|].
    rewrite without_http. change (bs "TTP/") with (bs "TTP" ++ [47]) in *. rewrite without_more by exact C.
    assert (NE : without (bs "TTP") y <> []).
    { intros E. revert C E. clear. unfold bs. cbn [app list_ascii_of_string map].
      destruct y as [|b1 y]; [discriminate|]. cbn [cmpb without].
      destruct (b1 =? _); [|discriminate]. destruct y as [|b2 y]; [discriminate|]. cbn [cmpb without].
      destruct (b2 =? _); [|discriminate]. destruct y as [|b3 y]; [discriminate|]. cbn [cmpb without].
      destruct (b3 =? _); [|discriminate]. destruct y as [|b4 y]; [discriminate|]. discriminate. }
    destruct (without (bs "TTP") y) as [|b z]; [contradiction|]. cbn [off_sem].
    unfold request_line, some. cbn [check]. rewrite upper_eq. destruct (upperb b) eqn:U; [|eexists; reflexivity].
    exact (reads_method bd clen (S (List.length z)) [] (b :: z) (le_n _)).
  Qed.

  (* A call in which the message begins in that way. *)
  Lemma short_call fuel p (y : list byte) (more : list (list byte)) m' o p1 c1 log1 r (seg : list byte) cb mk :
    loop h (Mach p (Ctx cb mk [] (72 :: y)) []) m' o -> state_fn p = StDetect1 -> parser_type p = Head ->
    suf seg (72 :: y) -> (mk + S (List.length y) = List.length seg)%nat ->
    (List.length y < 8)%nat -> cmpb (y ++ List.concat more) (bs "TTP/") = false ->
    (Mach p1 c1 log1, r) = finish m' o ->
    forall p' log' rest o',
    match r with
    | ROk (SEos n) => client fuel h p1 log1 more
    | ROk (SCallback n) => client fuel h p1 log1 (skipn n seg :: more)
    | ROk (SFinished n) => (p1, log1, skipn n seg ++ List.concat more, OFinished)
    | RErr e => (p1, log1, [], OError e)
    | RFault f => (p1, log1, [], OFault f)
    | RFuel => (p1, log1, [], OFuel)
    end = (p', log', rest, o') ->
    exists X, cpost X p' log' rest o' /\ shows X (head_from false (72 :: y ++ List.concat more)).
  Proof.
    intros L S T SU PO Y C F p' log' rest o' E.
    assert (R : run_fn h (Mach p (Ctx cb mk [] (72 :: y)) []) =
                (Mach (p_set_state p StDetect2) (Ctx cb (mk + 1) [] y) [], Continue)).
    { unfold run_fn. cbn [mp]. rewrite S. now apply detect1_short. }
    pose proof (loop_first _ _ _ _ R L) as L'.
    pose proof (off_rest fuel _ seg more m' o p1 c1 log1 r (off_clients fuel) L') as X.
    cbn [mp mc ml crest cslice state_fn parser_type p_set_state boundary rem state] in X.
    specialize (X eq_refl T eq_refl). rewrite E in X. unfold off_post in X.
    destruct X as [X _].
    - apply suf_trans with (72 :: y); [exact SU|apply suf_cons, suf_refl].
    - unfold cindex. cbn [cmark cslice List.length]. lia.
    - exact C.
    - exact F.
    - eexists. split; [exact X|]. now apply off_shows.
  Qed.

  Lemma run_strip p seg l : state_fn p = StStripDetect ->
    match strip seg with
    | [] => exists cb, run_fn h (Mach p (bs_new seg) l) =
              (Mach p (Ctx cb 0 seg []) l, Exit (SEos (List.length seg)))
    | m => exists cb mk, run_fn h (Mach p (bs_new seg) l) =
              (Mach (p_set_state p StDetect1) (Ctx cb mk [] m) l, Continue) /\
              (mk + List.length m = List.length seg)%nat /\ suf seg m
    end.
  Proof.
    intros S. unfold run_fn. cbn [mp]. rewrite S. unfold strip_detect. cbn [mc].
    pose proof (bs_collect_spec (fun b => Some (negb ((b =? 13) || (b =? 10) || (b =? 9) || (b =? 32)))) (bs_new seg)) as H.
    unfold bs_new in H at 1 2 3. cbn [cmark cslice crest] in H.
    destruct (bs_collect _ (bs_new seg)); cbn [collect_post] in H; unfold collecting.
    - destruct H as (x & b & y & E & F & St & ->). subst seg. rewrite strip_ws by exact F.
      injection St as St. apply negb_true_iff in St. cbn [strip]. rewrite St.
      unfold replay, transition, remark, set_state, with_p, with_c. cbn [mc mp ml app].
      rewrite replay_snoc. unfold bs_mark. cbn [cbyte crest].
      eexists; eexists; repeat split.
      + unfold cindex. cbn [cmark cslice List.length]. rewrite app_length. cbn [List.length]. lia.
      + now exists x.
    - destruct H as (cb' & -> & F). pose proof (strip_ws seg [] F) as Z. rewrite app_nil_r in Z.
      rewrite Z. cbn [strip]. exists cb'. reflexivity.
    - destruct H as (x & b & y & E & F & St & ->). discriminate St.
  Qed.

  Lemma strip_app a b : strip (a ++ b) = match strip a with [] => strip b | m => m ++ b end.
  Proof.
    induction a as [|x a IH]; [reflexivity|]. cbn [app strip]. destruct (_ || _); [exact IH|reflexivity].
  Qed.

  Lemma hok_bad s : hok s = false -> exists y, s = 72 :: y /\ cmpb y (bs "TTP/") = false.
  Proof.
    destruct s as [|b y]; [discriminate|]. cbn [hok]. destruct (N.eqb_spec b 72) as [->|]; [|discriminate]. eauto.
  Qed.

  Lemma begins_cmpb : forall w s, cmpb s w = true -> begins w s = true \/ begins s w = true.
  Proof.
    induction w as [|c w IH]; intros [|b s]; auto. cbn [begins cmpb]. rewrite (N.eqb_sym c b).
    intros E. apply andb_true_iff in E. destruct E as [-> E]. cbn [andb]. auto.
  Qed.

  Lemma head_from_ok enough m : hok m = true -> head_from enough m = head_from true m.
  Proof.
    intros H. unfold head_from. destruct (begins (bs "HTTP/") m) eqn:B1; [reflexivity|].
    destruct (begins m (bs "HTTP/")) eqn:B2; [reflexivity|]. destruct enough; [reflexivity|]. f_equal.
    destruct m as [|b m]; [reflexivity|]. cbn [hok] in H.
    change (bs "HTTP") with (72 :: bs "TTP"). cbn [without].
    destruct (b =? 72) eqn:E; [|reflexivity]. apply N.eqb_eq in E. subst b. exfalso.
    change (begins (72 :: m) (bs "HTTP/")) with (begins m (bs "TTP/")) in B2.
    change (begins (bs "HTTP/") (72 :: m)) with (begins (bs "TTP/") m) in B1.
    destruct (begins_cmpb _ _ H); congruence.
  Qed.

  Lemma read_head_from s : read_head s = head_from true (strip s).
  Proof. reflexivity. Qed.

  Lemma cut_client fuel : forall p segs p' log' rest o,
    parser_type p = Head -> state_fn p = StStripDetect -> segs <> [] -> o <> OFuel ->
    client fuel h p [] segs = (p', log', rest, o) ->
    exists X, cpost X p' log' rest o /\ shows X (read_cut_head segs).
  Proof.
    assert (Easy : forall fuel p segs p' log' rest o,
      parser_type p = Head -> state_fn p = StStripDetect -> segs <> [] ->
      hok (strip (List.concat segs)) = true \/ (9 <= List.length (strip (hd [] segs)))%nat ->
      client fuel h p [] segs = (p', log', rest, o) ->
      exists X, cpost X p' log' rest o /\ shows X (head_from true (strip (List.concat segs)))).
    { intros f p segs p' log' rest o T S NE Hh E.
      assert (I : rinv2 p (hd [] segs) (List.concat (tl segs))).
      { constructor; rewrite ?T, ?S; try reflexivity; try discriminate.
        destruct Hh as [Hh|Hh]; [left|right; left; split; [reflexivity|assumption]].
        rewrite <- concat_hd. exact Hh. }
      destruct (client_sim h clen Hclen f p [] segs _ _ _ _ I (or_intror NE) ltac:(rewrite S; discriminate) E) as [P _].
      apply cpost_client in P. rewrite rsem_head in P by exact T. exists (psem clen p (flat []) (List.concat segs)).
      split; [exact P|]. unfold psem, alpha. rewrite T, S. exact (reads_message (boundary p) clen (List.concat segs)). }
    induction fuel as [|fuel IH]; intros p segs p' log' rest o T S NE EN E.
    { destruct segs as [|seg more]; [congruence|]. cbn [client] in E. injection E as <- <- <- <-. congruence. }
    destruct (hok (strip (List.concat segs))) eqn:Hh.
    { unfold read_cut_head. rewrite head_from_ok by exact Hh. apply (Easy (Datatypes.S fuel) p); auto. }
    destruct segs as [|seg more]; [congruence|]. unfold read_cut_head. cbn [first_part].
    pose proof (run_strip p seg [] S) as R.
    destruct (strip seg) as [|b y] eqn:W.
    - (* nothing but white space *)
      destruct R as (cb & R). cbn [client] in E. unfold resume in E. rewrite T in E. cbv iota in E.
      destruct (parse (fuel_of seg) h (Mach p (bs_new seg) [])) as [[p1 c1 log1] r] eqn:P.
      destruct (parse_start h _ _ _ _ _ P) as (m' & o1 & L & F).
      destruct L as [m m' o1 R' N|m m1 m' o1 R' L]; [|congruence].
      rewrite R in R'. injection R' as <- <-. cbn [finish] in F. injection F as -> _ -> ->.
      cbn [mp ml with_p] in E. cbn [List.concat]. rewrite strip_app, W.
      refine (IH (add_count p _) more _ _ _ _ T S _ EN E).
      intros ->. cbn [List.concat] in Hh. rewrite app_nil_r, W in Hh. discriminate Hh.
    - destruct (Nat.leb_spec 9 (List.length (b :: y))) as [Y|Y].
      { apply (Easy (Datatypes.S fuel) p (seg :: more)); auto. right. cbn [hd]. now rewrite W. }
      cbn [List.concat] in Hh |- *. rewrite strip_app, W in Hh |- *.
      destruct (hok_bad _ Hh) as (z & Ez & C). cbn [app] in Ez. injection Ez as -> Ez. rewrite <- Ez in C.
      destruct R as (cb & mk & R & M1 & M2). cbn [client] in E. unfold resume in E. rewrite T in E. cbv iota in E.
      destruct (parse (fuel_of seg) h (Mach p (bs_new seg) [])) as [[p1 c1 log1] r] eqn:P.
      destruct (parse_start h _ _ _ _ _ P) as (m' & o1 & L & F). cbn [mp ml] in E.
      apply (short_call fuel (p_set_state p StDetect1) y more m' o1 p1 c1 log1 r seg cb mk); auto.
      + exact (loop_first _ _ _ _ R L).
      + cbn [List.length] in Y. lia.
  Qed.

  Lemma reads_detect1 bd s : s <> [] -> shows (aexec Head bd clen (A StDetect1 0 0 0) [] s) (head_from true s).
  Proof.
    destruct s as [|b s]; [congruence|]. intros _.
    rewrite aexec_byte by reflexivity. unfold abyte. cbn [abyte_raw a_st].
    unfold a_detect1. destruct (N.eqb_spec b 72) as [->|N72].
    { unfold st; cbn [nrm a_st a_lo a_up a_len uses_lo uses_up app]. apply (reads_h bd clen [] s). }
    cbv zeta. unfold head_from. change (bs "HTTP/") with [72; 84; 84; 80; 47]. cbn [begins].
    rewrite (N.eqb_sym 72 b). destruct (N.eqb_spec b 72) as [|_]; [contradiction|]. cbn [andb].
    unfold request_line, some. cbn [check]. rewrite upper_eq. destruct (upperb b) eqn:U.
    - pose proof (reads_method bd clen (S (List.length s)) [] (b :: s) (le_n _)) as M.
      rewrite aexec_byte in M by reflexivity. unfold abyte in M. cbn [abyte_raw a_st] in M. unfold a_method in M.
      rewrite upper_eq, U in M. exact M.
    - eexists; reflexivity.
  Qed.

  Lemma new_client fuel segs p' log' rest o : segs <> [] ->
    client (S fuel) h new [] segs = (p', log', rest, o) ->
    exists X, cpost X p' log' rest o /\ shows X (read_new_head segs).
  Proof.
    intros NE E. destruct segs as [|seg more]; [congruence|]. unfold read_new_head. cbn [hd].
    destruct seg as [|b y].
    { cbn [client] in E. injection E as <- <- <- <-. exists (AFlt []). split; [|reflexivity].
      exists []. split; [reflexivity|]. apply nearly_refl. }
    assert (Easy : hok (List.concat ((b :: y) :: more)) = true \/ (9 <= List.length (b :: y))%nat ->
      exists X, cpost X p' log' rest o /\ shows X (head_from true (List.concat ((b :: y) :: more)))).
    { intros Hh.
      assert (I : rinv2 new (b :: y) (List.concat more)).
      { constructor; try reflexivity; try discriminate.
        destruct Hh as [Hh|Hh]; [left|right; right; split; [reflexivity|assumption]].
        exact Hh. }
      destruct (client_sim h clen Hclen _ new [] ((b :: y) :: more) _ _ _ _ I (or_intror NE) ltac:(discriminate) E) as [P _].
      apply cpost_client in P. eexists. split; [exact P|].
      exact (reads_detect1 None (List.concat ((b :: y) :: more)) ltac:(discriminate)). }
    destruct (hok (List.concat ((b :: y) :: more))) eqn:Hh.
    { rewrite head_from_ok by exact Hh. auto. }
    destruct (Nat.leb_spec 9 (List.length (b :: y))) as [Y|Y]; [auto|].
    destruct (hok_bad _ Hh) as (z & Ez & C). cbn [List.concat app] in Ez |- *. injection Ez as -> Ez. rewrite <- Ez in C.
    cbn [client] in E. unfold resume in E. change (parser_type new) with Head in E. cbv iota in E.
    destruct (parse (fuel_of (@cons byte 72 y)) h (Mach new (bs_new (@cons byte 72 y)) [])) as [[p1 c1 log1] r] eqn:P.
    destruct (parse_start h _ _ _ _ _ P) as (m' & o1 & L & F). cbn [mp ml] in E.
    apply (short_call fuel new y more m' o1 p1 c1 log1 r (@cons byte 72 y) 0 0%nat); auto.
    - apply suf_refl.
    - cbn [List.length] in Y. lia.
  Qed.
End Off.

(* ------------------------------------------------------------------ *)
(* Conclusions                                                          *)
(* ------------------------------------------------------------------ *)

(* What state() says, as far as the function to be called next is concerned. *)
Definition named (p' : parser) (o : ending) : Prop :=
  match o with
  | OFuel | OFault _ => True
  | OError _ => state p' = StDead
  | _ => state p' = state_fn p'
  end.

Lemma client_named h fuel : forall p log segs p' log' rest o,
  vstate (parser_type p) (state_fn p) = true -> state p = state_fn p ->
  client fuel h p log segs = (p', log', rest, o) -> named p' o.
Proof.
  induction fuel as [|fuel IH]; intros p log segs p' log' rest o V S E.
  - destruct segs; injection E as <- <- <- <-; [exact S|exact I].
  - destruct segs as [|seg more]; [injection E as <- <- <- <-; exact S|]. cbn [client] in E.
    destruct (resume h p log seg) as [[p1 log1] r] eqn:R.
    pose proof (resume_facts_all _ _ _ _ _ _ _ V R) as RF.
    pose proof (rf_vstate _ _ _ _ _ _ RF) as rf_vstate0. pose proof (rf_state _ _ _ _ _ _ RF) as rf_state0.
    pose proof (rf_err _ _ _ _ _ _ RF) as rf_err0.
    destruct r as [[n|n|n]|e|f|].
    + apply (IH _ _ _ _ _ _ _ rf_vstate0 (rf_state0 S ltac:(discriminate)) E).
    + apply (IH _ _ _ _ _ _ _ rf_vstate0 (rf_state0 S ltac:(discriminate)) E).
    + injection E as <- <- <- <-. exact (rf_state0 S ltac:(discriminate)).
    + injection E as <- <- <- <-. exact (proj2 (rf_err0 e eq_refl)).
    + injection E as <- <- <- <-. exact I.
    + injection E as <- <- <- <-. exact I.
Qed.

(* The first function of a new parser names the next state, whatever the
   name of its own. *)
Lemma next_named m k : crest (mc m) <> [] ->
  (forall m' b, wp (k m' b) (fun m' o => match o with Continue | Exit _ => state (mp m') = state_fn (mp m') | _ => True end)) ->
  wp (next_or_eos m k) (fun m' o => match o with Continue | Exit _ => state (mp m') = state_fn (mp m') | _ => True end).
Proof.
  intros N K. destruct m as [p [cb mk sl [|b y]] l]; cbn [mc crest] in N; [congruence|].
  unfold next_or_eos, bs_next. cbn [mc crest]. apply K.
Qed.

Lemma detect1_named h m : crest (mc m) <> [] ->
  wp (detect1 h m) (fun m' o => match o with Continue | Exit _ => state (mp m') = state_fn (mp m') | _ => True end).
Proof.
  intros N.
  assert (Sl : wp (detect1_slow m) (fun m' o => match o with Continue | Exit _ => state (mp m') = state_fn (mp m') | _ => True end)).
  { apply next_named; [exact N|]. intros m' b. now destruct (is_upper b). }
  assert (Me : forall w n, wp (detect1_method h m w n) (fun m' o => match o with Continue | Exit _ => state (mp m') = state_fn (mp m') | _ => True end)).
  { intros w n. unfold detect1_method, callback_transition_data, callback_data, call. now destruct (h_ret h _ _). }
  assert (Ve : forall a b n, wp (detect1_version h m a b n) (fun m' o => match o with Continue | Exit _ => state (mp m') = state_fn (mp m') | _ => True end)).
  { intros a b n. unfold detect1_version, callback_transition_data, callback_data, call. now destruct (h_ret h _ _). }
  unfold detect1, detect1_methods, if_starts_with.
  repeat match goal with
  | |- wp (match ?x with _ => _ end) _ => destruct x
  end; auto; reflexivity || exact I.
Qed.

Lemma new_named h fuel (b : byte) y more p' log' rest o :
  client fuel h new [] ((b :: y) :: more) = (p', log', rest, o) -> named p' o.
Proof.
  destruct fuel as [|fuel]; intros E; [injection E as <- <- <- <-; exact I|]. cbn [client] in E.
  destruct (resume h new [] (b :: y)) as [[p1 log1] r] eqn:R.
  pose proof (resume_facts_all _ _ _ _ _ _ _ (eq_refl : vstate (parser_type new) (state_fn new) = true) R) as RF.
  pose proof (rf_vstate _ _ _ _ _ _ RF) as V. pose proof (rf_err _ _ _ _ _ _ RF) as Er.
  assert (S : (forall f, r <> RFault f) -> state p1 = state_fn p1).
  { intros NF. unfold resume in R. change (parser_type new) with Head in R. cbv iota in R.
    destruct (parse (fuel_of (b :: y)) h (Mach new (bs_new (b :: y)) [])) as [[p2 c2 log2] r2] eqn:P.
    destruct (parse_start h _ _ _ _ _ P) as (m' & o1 & L & F). cbn [mp ml] in R. injection R as -> -> ->.
    assert (K : match o1 with Continue | Exit _ => state (mp m') = state_fn (mp m') | _ => True end).
    { pose proof (wp_run _ _ (detect1_named h (Mach new (bs_new (b :: y)) []) ltac:(discriminate))) as D.
      inversion L as [m0 m1 o0 R N|m0 m1 m2 o0 R L1]; subst.
      - exact (D _ _ R).
      - specialize (D _ _ R). cbn beta iota in D. destruct o1; try exact I; exact (lf_state _ _ _ (loop_facts_all h _ _ _ L1) D). }
    assert (Fp : p1 = mp (fst (finish m' o1))) by now rewrite <- F.
    assert (Fr : r = snd (finish m' o1)) by now rewrite <- F.
    rewrite Fp. destruct o1 as [|s|e|f]; cbn [finish fst snd] in Fr |- *.
    - exact K.
    - destruct s; cbn; try exact K. destruct (loop_facts_all h _ _ _ L). now destruct (lf_fin n eq_refl).
    - reflexivity.
    - congruence. }
  destruct r as [[n|n|n]|e|f|].
  - exact (client_named _ _ _ _ _ _ _ _ _ V (S ltac:(discriminate)) E).
  - exact (client_named _ _ _ _ _ _ _ _ _ V (S ltac:(discriminate)) E).
  - injection E as <- <- <- <-. exact (S ltac:(discriminate)).
  - injection E as <- <- <- <-. exact (proj2 (Er e eq_refl)).
  - injection E as <- <- <- <-. exact I.
  - injection E as <- <- <- <-. exact I.
Qed.

Lemma understood_post X r p' log rest o : o <> OFuel -> named p' o ->
  cpost X p' log rest o -> shows X r -> understood same_kind r (p', log, rest, o).
Proof.
  intros EN Q P S. destruct r as [L v]. unfold shows in S. unfold understood. cbn [fst snd] in *.
  destruct o as [| |e|f|]; cbn [cpost named] in P, Q; [| | | |congruence].
  - destruct P as (P & -> & W & _). destruct v as [y| |e|].
    + destruct S as (a & S & Fi). rewrite S in P. injection P as -> -> ->. rewrite alpha_st in Fi. rewrite Fi in W. discriminate W.
    + destruct S as (a & S & _ & A). rewrite S in P. injection P as -> ->. rewrite alpha_st in A. rewrite Q. auto.
    + destruct S as [? S]. congruence.
    + congruence.
  - destruct P as (P & W). destruct v as [y| |e|].
    + destruct S as (a & S & Fi). rewrite S in P. injection P as -> _ ->. rewrite Q. auto.
    + destruct S as (a & S & Fi & _). rewrite S in P. injection P as -> -> _. rewrite alpha_st, W in Fi. discriminate Fi.
    + destruct S as [? S]. congruence.
    + congruence.
  - destruct P as (L' & e' & R & P & K & Y). destruct v as [y| |e0|].
    + destruct S as (a & S & _). congruence.
    + destruct S as (a & S & _). congruence.
    + destruct S as [y S]. rewrite S in P. injection P as -> -> _. repeat split; eauto.
    + congruence.
  - destruct P as (L' & P & Y). destruct v as [y| |e0|].
    + destruct S as (a & S & _). congruence.
    + destruct S as (a & S & _). congruence.
    + destruct S as [? S]. congruence.
    + rewrite S in P. injection P as ->. eauto.
Qed.

Lemma cut_head_understood h q segs : segs <> [] ->
  understood eq (read_cut_head segs) (feed h (init_head q) segs).
Proof.
  intros NE. apply understood_exactly; [reflexivity|discriminate|].
  pose proof (feed_ends (no_clen h) (init_head q) segs eq_refl) as EN. unfold feed in *.
  rewrite (client_no_clen h) by (reflexivity || discriminate).
  destruct (client (calls segs) (no_clen h) (init_head q) [] segs) as [[[p' log] rest] o] eqn:F.
  destruct (cut_client (no_clen h) (fun _ => None) (fun _ => eq_refl) _ (init_head q) segs _ _ _ _ eq_refl eq_refl NE EN F)
    as (X & P & S).
  exact (understood_post X _ _ _ _ _ EN (client_named _ _ (init_head q) _ _ _ _ _ _ eq_refl eq_refl F) P S).
Qed.

Lemma new_head_understood h segs : segs <> [] ->
  understood eq (read_new_head segs) (feed h new segs).
Proof.
  intros NE. apply understood_exactly; [reflexivity|discriminate|].
  pose proof (feed_ends (no_clen h) new segs eq_refl) as EN. unfold feed in *.
  rewrite (client_no_clen h) by (reflexivity || discriminate).
  destruct (client (calls segs) (no_clen h) new [] segs) as [[[p' log] rest] o] eqn:F.
  assert (Ca : exists k, calls segs = S k).
  { destruct segs as [|seg more]; [congruence|]. cbn [calls]. exists (8 * List.length seg + 7 + calls more)%nat. lia. }
  destruct Ca as [k Ca]. rewrite Ca in F.
  destruct (new_client (no_clen h) (fun _ => None) (fun _ => eq_refl) k segs _ _ _ _ NE F) as (X & P & S).
  refine (understood_post X _ _ _ _ _ EN _ P S).
  destruct segs as [|[|b y] more]; [congruence| |exact (new_named _ _ _ _ _ _ _ _ _ F)].
  cbn [client] in F. injection F as <- <- <- <-. exact I.
Qed.

(* The pieces do not matter, unless a method beginning with H is cut. *)
Lemma cut_head_whole segs :
  hok (strip (List.concat segs)) = true \/ (9 <= List.length (first_part segs))%nat ->
  read_cut_head segs = read_head (List.concat segs).
Proof.
  intros [H|H]; rewrite read_head_from; unfold read_cut_head.
  - now apply head_from_ok.
  - apply Nat.leb_le in H. now rewrite H.
Qed.
