(* The order of the callbacks: proofs. *)

From Coq Require Import NArith List Bool Arith String Lia.
From Verif Require Import Bytes ByteStream Http1Model Http1Base Http1Wp Http1Term Http1Spec
     Http1Protocol Http1Sem Http1Sim Http1Misc Http1Data Http1Run Http1Client.
Import ListNotations.
Local Open Scope N_scope.

(* ------------------------------------------------------------------ *)
(* Phases and states                                                    *)
(* ------------------------------------------------------------------ *)

(* Phases in which the header states occur. *)
Definition hphase (t : ptype) (len : N) (ph : phase) : Prop :=
  match t with
  | Head => ph = HHeaders
  | Chunked => (ph = CLen 0 /\ len = 0) \/ ph = CTrailer
  | Multipart => ph = MHeaders
  | UrlEncoded => False
  end.

(* Phases in which each state occurs; sl: collected bytes, r: the bytes to
   come, len and lo: fields of the parser. *)
Definition compat (t : ptype) (s : pstate) (len lo : N) (sl r : list byte) (ph : phase) : Prop :=
  match s with
  | StDead => ph <> PDone
  | StStripDetect | StDetect1 | StDetect2 | StDetect3 | StDetect4 | StDetect5
  | StResponseVersionMajor1 | StResponseVersionMajor2 | StResponseVersionMajor3
  | StResponseVersionPeriod | StResponseVersionMinor1 | StResponseVersionMinor2
  | StResponseVersionMinor3 | StResponseVersionSpace => ph = HStart
  | StRequestMethod => (ph = HStart /\ sl <> []) \/ ph = HMethod
  | StRequestUrl1 => ph = HMethod
  | StRequestUrl2 => (ph = HMethod /\ sl <> []) \/ ph = HUrl
  | StRequestHttp1 | StRequestHttp2 | StRequestHttp3 | StRequestHttp4 | StRequestHttp5
  | StRequestVersionMajor1 | StRequestVersionMajor2 | StRequestVersionMajor3
  | StRequestVersionPeriod | StRequestVersionMinor1 | StRequestVersionMinor2
  | StRequestVersionMinor3 | StRequestVersionCr => ph = HUrl
  | StResponseStatusCode1 | StResponseStatusCode2 | StResponseStatusCode3
  | StResponseStatusCodeSpace => ph = HVersion
  | StResponseStatus1 => ph = HCode
  | StResponseStatus2 =>
      (ph = HCode /\ exists b r', r = b :: r' /\ is_status_byte b = true) \/ ph = HStatus
  | StInitialEnd => ph = HRequest \/ ph = HStatus
  | StInitialLf => match t with Head => ph = HHeaders | Multipart => ph = MHeaders | _ => False end
  | StCheckHeaderName | StFirstHeaderName | StUpperHeaderName | StLowerHeaderName
  | StStripHeaderValue | StHeaderValue | StHeaderQuotedValue | StHeaderEscapedValue
  | StHeaderCr1 | StHeaderLf1 | StHeaderCr2 | StHeaderLf2 | StHeaderEnd => hphase t len ph
  | StChunkLength1 => ph = CStart \/ ph = CData 0
  | StChunkLength2 | StChunkLength3 | StChunkLength4 | StChunkLength5 | StChunkLength6
  | StChunkLength7 | StChunkLength8 | StChunkLengthCr => ph = CBegun
  | StStripChunkExtensionName => ph = CLen len \/ ph = CExt len
  | StUpperChunkExtensionName | StLowerChunkExtensionName | StStripChunkExtensionValue =>
      ph = CLen len \/ ph = CExt len \/ ph = CName len
  | StChunkExtensionValue | StChunkExtensionQuotedValue | StChunkExtensionEscapedValue
  | StChunkExtensionFinished =>
      ph = CLen len \/ ph = CExt len \/ ph = CName len \/ ph = CVal len
  | StChunkExtensionsFinished => ph = CLen len \/ ph = CExt len
  | StChunkLengthLf | StChunkData => ph = CData len
  | StChunkDataCr | StChunkDataLf => ph = CData 0
  | StMultipartHyphen1 | StMultipartHyphen2 | StMultipartBoundary | StMultipartBoundaryCr =>
      (ph = MStart /\ lo <> 0) \/ ph = MData
  | StMultipartBoundaryLf => False
  | StMultipartEnd => ph = MStart \/ ph = MData
  | StMultipartDetectData => ph = MAsk
  | StMultipartDataByByte | StMultipartDataByByteLf | StMultipartDataByLength
  | StMultipartDataByLengthCr | StMultipartDataByLengthLf => ph = MData
  | StFirstUrlEncodedName => ph = UStart \/ ph = UName \/ ph = UValue
  | StUrlEncodedName | StUrlEncodedNameHex1 | StUrlEncodedNameHex2 | StUrlEncodedNamePlus =>
      ph = UName
  | StUrlEncodedValue | StUrlEncodedValueHex1 | StUrlEncodedValueHex2 | StUrlEncodedValuePlus =>
      ph = UName \/ ph = UValue
  | StBodyFinished =>
      match t with
      | Head => False
      | Chunked => ph = CEnd
      | Multipart => ph = MStart \/ ph = MData
      | UrlEncoded => ph = UStart \/ ph = UName \/ ph = UValue
      end
  | StFinished => ph = PDone
  end.

Definition pcompat (p : parser) (sl r : list byte) (ph : phase) : Prop :=
  compat (parser_type p) (state_fn p) (plength p) (get_lower14 p) sl r ph.

(* After a step; when the parser leaves, the collected bytes are forgotten and
   any bytes may follow. *)
Definition order_post (ph : phase) (m m' : mach) (o : outcome) : Prop :=
  exists x ph', ml m' = ml m ++ x /\ prun ph x = Some ph' /\
    match o with
    | Continue => pcompat (mp m') (cslice (mc m')) (crest (mc m')) ph'
    | Exit _ => forall r, pcompat (mp m') [] r ph'
    | Fail _ | Faulted _ => ph' <> PDone
    end.

Lemma order_none ph m p c o :
  match o with
  | Continue => pcompat p (cslice c) (crest c) ph
  | Exit _ => forall r, pcompat p [] r ph
  | Fail _ | Faulted _ => ph <> PDone
  end -> order_post ph m (Mach p c (ml m)) o.
Proof. intros H. exists [], ph. repeat split; [now rewrite app_nil_r|exact H]. Qed.

Lemma order_one ph ph' m p c e o :
  pstep ph e = Some ph' ->
  match o with
  | Continue => pcompat p (cslice c) (crest c) ph'
  | Exit _ => forall r, pcompat p [] r ph'
  | Fail _ | Faulted _ => ph' <> PDone
  end -> order_post ph m (Mach p c (ml m ++ [e])) o.
Proof.
  intros E H. exists [e], ph'. split; [reflexivity|]. split; [cbn [prun]; now rewrite E|exact H].
Qed.

Lemma prun_app ph x y :
  prun ph (x ++ y) = match prun ph x with Some ph' => prun ph' y | None => None end.
Proof.
  revert ph. induction x as [|e x IH]; intros ph; cbn [prun app]; [reflexivity|].
  destruct (pstep ph e); [apply IH|reflexivity].
Qed.

Lemma order_data n m p c d o :
  N.of_nat (List.length d) <= n ->
  match o with
  | Continue => pcompat p (cslice c) (crest c) (CData (n - N.of_nat (List.length d)))
  | Exit _ => forall r, pcompat p [] r (CData (n - N.of_nat (List.length d)))
  | Fail _ | Faulted _ => CData (n - N.of_nat (List.length d)) <> PDone
  end -> order_post (CData n) m (Mach p c (ml m ++ [EData KChunkData d])) o.
Proof.
  intros L. apply order_one. cbn [pstep]. apply N.leb_le in L. now rewrite L.
Qed.

Definition tslice (s : pstate) (sl : list byte) : Prop := pkind s = None -> sl = [].

Lemma run_fn_order h ph m :
  tslice (state_fn (mp m)) (cslice (mc m)) ->
  vstate (parser_type (mp m)) (state_fn (mp m)) = true ->
  pcompat (mp m) (cslice (mc m)) (crest (mc m)) ph ->
  wp (run_fn h m) (order_post ph m).
Proof.
  destruct m as [p [cb mk sl r] l]. unfold run_fn, pcompat. cbn [mp mc cslice crest].
  destruct (state_fn p) eqn:Efn; cbv beta delta [tslice pkind compat vstate hphase]; cbv iota beta; intros S V C.
  all: try (specialize (S eq_refl); subst sl).
  all: try (match goal with V : context [parser_type ?q] |- _ => destruct (parser_type q) eqn:T end).
  all: try discriminate V; clear V.
  all: try solve [contradiction].
  all: repeat match goal with
       | H : _ \/ _ |- _ => destruct H
       | H : _ /\ _ |- _ => destruct H
       | H : exists _, _ |- _ => destruct H
       end; subst.
  all: unfold_state; lits.
 all: wp_all.
 all: try (apply (order_none _ (Mach _ _ l)); first [exact I|discriminate|assumption]).
all: first [ eapply (order_one _ _ (Mach _ _ l)); [reflexivity|] | apply (order_none _ (Mach _ _ l)) | idtac ].
all: unfold pcompat; cbn [cslice crest parser_type plength state_fn p_set_state set_lower14 set_upper14 with_bits with_length compat].
all: rewrite ?Efn.
all: try exact I.
all: try (intros; cbn [compat]; auto; fail).
all: intros; rewrite ?T; cbn [compat hphase].
all: try solve [auto 6 | left; split; [reflexivity|discriminate] | congruence].
  all: clear_big.
  all: repeat match goal with
       | H : (?x =? 0) = true |- _ => apply N.eqb_eq in H
       end.
  all: try congruence.
  all: try (destruct (_ =? 13); cbn [compat]; auto; fail).
  all: try (apply (order_data _ (Mach _ _ l)); [|unfold pcompat; intros; cbn [mp mc cslice crest parser_type plength state_fn p_set_state with_length compat]]).
  all: try (cbn [app]; rewrite ?firstn_length; boolP; lia).
  all: try (f_equal; boolP; cbn [app]; rewrite ?firstn_length; lia).
  all: try (f_equal; match goal with E : firstn _ _ = [] |- _ => apply (f_equal (@List.length _)) in E; rewrite firstn_length in E; cbn [List.length] in E; boolP; lia end).
  all: try (match goal with H : plength _ = 0 |- _ => left; split; [now rewrite H|assumption] end).
  all: try (left; split; [reflexivity|];
       match goal with |- get_lower14 ?q <> 0 => replace (get_lower14 q) with (get_lower14 p); [assumption|] end;
       rewrite ?gl_ss, get_lower_set_upper; reflexivity).
  - left. split; [reflexivity|]. now exists b, r'.
  - exfalso. injection H as -> ->. rewrite H1 in H2. discriminate.
Qed.

(* ------------------------------------------------------------------ *)
(* The loop, one resume call, a whole conversation                      *)
(* ------------------------------------------------------------------ *)

Definition rcompat (p : parser) (ph : phase) : Prop := forall r, pcompat p [] r ph.

Lemma parse_order h fuel : forall ph m m' r,
  slice_ok (state_fn (mp m)) (cslice (mc m)) ->
  vstate (parser_type (mp m)) (state_fn (mp m)) = true ->
  pcompat (mp m) (cslice (mc m)) (crest (mc m)) ph ->
  parse fuel h m = (m', r) ->
  exists x ph', ml m' = ml m ++ x /\ prun ph x = Some ph' /\
    match r with ROk _ | RErr _ => rcompat (mp m') ph' | RFault _ => ph' <> PDone | _ => True end /\
    (forall n, r = ROk (SEos n) -> needs_byte (state_fn (mp m')) = true).
Proof.
  induction fuel as [|fuel IH]; intros ph m m' r S V C E; cbn [parse] in E.
  - injection E as <- <-. exists [], ph. repeat split; [now rewrite app_nil_r|discriminate].
  - destruct (run_fn h m) as [m1 o] eqn:R.
    assert (S' : tslice (state_fn (mp m)) (cslice (mc m))).
    { unfold slice_ok in S. intros P. now rewrite P in S. }
    destruct (wp_run _ _ (run_fn_order h ph m S' V C) _ _ R) as (x & ph1 & X1 & X2 & C1).
    destruct (wp_run _ _ (run_fn_data h m S) _ _ R) as (_ & S1).
    destruct (wp_run _ _ (run_fn_vstate h m V) _ _ R) as (V1 & _).
    destruct o as [|s|e|f].
    + apply (IH ph1) in E; auto. destruct E as (y & ph2 & Y1 & Y2 & C2 & N2).
      exists (x ++ y), ph2. repeat split; [now rewrite Y1, X1, app_assoc| |assumption|assumption].
      now rewrite prun_app, X2.
    + injection E as <- <-. exists x, ph1. repeat split; [exact X1|exact X2| |].
      * intros rr. specialize (C1 rr). destruct s; exact C1.
      * intros n [= ->]. apply (mi_eos _ _ _ (wp_run _ _ (run_fn_misc h m) _ _ R) n eq_refl).
    + injection E as <- <-. exists x, ph1. split; [exact X1|]. split; [exact X2|]. split; [|discriminate].
      intros rr. exact C1.
    + injection E as <- <-. exists x, ph1. repeat split; [exact X1|exact X2|exact C1|discriminate].
Qed.

Lemma rcompat_length p n ph : parser_type p = UrlEncoded ->
  vstate (parser_type p) (state_fn p) = true ->
  rcompat p ph -> rcompat (with_length p n) ph.
Proof.
  intros T V C r. specialize (C r). unfold pcompat in *.
  cbn [with_length parser_type state_fn plength]. rewrite gl_wl.
  rewrite T in *. destruct (state_fn p); try discriminate V; exact C.
Qed.

Lemma rcompat_url p ph : parser_type p = UrlEncoded ->
  vstate (parser_type p) (state_fn p) = true -> needs_byte (state_fn p) = true ->
  rcompat p ph -> pstep ph EBodyFinished = Some PDone.
Proof.
  intros T V N C. specialize (C []). unfold pcompat in C. rewrite T in *.
  destruct (state_fn p); try discriminate V; try discriminate N; cbn [compat] in C;
    repeat (destruct C as [C|C]; [subst; reflexivity|]); subst; reflexivity.
Qed.

Lemma resume_order h ph p log s p' log' r :
  vstate (parser_type p) (state_fn p) = true -> rcompat p ph ->
  resume h p log s = (p', log', r) ->
  exists x ph', log' = log ++ x /\ prun ph x = Some ph' /\
    match r with ROk _ | RErr _ => rcompat p' ph' | RFault _ => ph' <> PDone | _ => True end /\
    (forall n, r = ROk (SEos n) -> needs_byte (state_fn p') = true).
Proof.
  intros V C E.
  assert (D : forall n c m r, parse n h (Mach p (bs_new c) log) = (m, r) ->
    exists x ph', ml m = log ++ x /\ prun ph x = Some ph' /\
    match r with ROk _ | RErr _ => rcompat (mp m) ph' | RFault _ => ph' <> PDone | _ => True end /\
    (forall n, r = ROk (SEos n) -> needs_byte (state_fn (mp m)) = true)).
  { intros n c m r0 P. apply (parse_order h n ph) in P; auto; try apply slice_ok_nil; try apply C; exact P. }
  destruct (parser_type p) eqn:T; unfold resume in E; rewrite T in E.
  1-3: destruct (parse _ _ _) as [m r0] eqn:P; injection E as <- <- <-; apply D in P; destruct P as (x & ph1 & P1 & P2 & P3 & P5); now exists x, ph1.
  cbv zeta in E. rewrite cut_eq in E.
  destruct (parse _ _ _) as [m r0] eqn:P in E.
  pose proof (parse_facts_all _ _ _ _ _ _ P) as PF. apply D in P.
  destruct P as (x & ph1 & P1 & P2 & P3 & P5).
  assert (T' : parser_type (mp m) = UrlEncoded) by (rewrite (pf_type _ _ _ _ _ PF); exact T).
  assert (V' : vstate (parser_type (mp m)) (state_fn (mp m)) = true).
  { apply (pf_vstate _ _ _ _ _ PF). now rewrite T. }
  assert (Le : plength (mp m) = plength p) by (apply (pf_length _ _ _ _ _ PF); [now rewrite T|exact T]).
  assert (Lk : (List.length (firstn (N.to_nat (plength p)) s) <= N.to_nat (plength p))%nat)
    by (rewrite firstn_length; lia).
  destruct r0 as [[n|n|n]|e|f|].
  - destruct (pf_cb _ _ _ _ _ PF n eq_refl) as (B & _).
    destruct (N.ltb_spec (plength (mp m)) (N.of_nat n)) as [Z|_]; [lia|].
    injection E as <- <- <-; exists x, ph1; split; [auto|]. split; [auto|]. split; [|discriminate].
    now apply rcompat_length.
  - destruct (pf_eos _ _ _ _ _ PF n eq_refl) as (B & _).
    destruct (N.ltb_spec (plength (mp m)) (N.of_nat n)) as [Z|_]; [lia|].
    destruct (_ =? 0).
    2: { injection E as <- <- <-; exists x, ph1; split; [auto|]. split; [auto|].
         split; [now apply rcompat_length|]. intros k _. now apply (P5 n). }
    destruct (parse _ h (with_p _ _)) as [m2 r2] eqn:P4 in E. injection E as <- <- <-.
    set (k := firstn _ s) in *.
    replace (fuel_of k) with (Datatypes.S (Datatypes.S (fuel_of k - 2))) in P4 by (unfold fuel_of; lia).
    apply body_finish in P4; [|reflexivity|now cbn [with_p mp p_set_state parser_type]; congruence].
    destruct P4 as (Q1 & Q2 & Q3 & Q4 & Q5 & Q6 & Q7).
    exists (x ++ [EBodyFinished]), PDone. repeat split.
    + rewrite Q1, P1. now rewrite app_assoc.
    + rewrite prun_app, P2. cbn [prun].
      rewrite (rcompat_url (mp m)); auto. now apply (P5 n).
    + assert (R : rcompat (mp m2) PDone) by (intros rr; unfold pcompat; now rewrite Q2).
      destruct Q7 as [-> | ->]; exact R.
    + intros n0 ->. destruct Q7; discriminate.
  - injection E as <- <- <-. exists x, ph1; repeat split; auto; discriminate.
  - injection E as <- <- <-. exists x, ph1; repeat split; auto; discriminate.
  - injection E as <- <- <-. exists x, ph1; repeat split; auto; discriminate.
  - injection E as <- <- <-. exists x, ph1; repeat split; auto; discriminate.
Qed.

(* Only a parser that has finished is done. *)
Lemma done_finished p : rcompat p PDone -> vstate (parser_type p) (state_fn p) = true -> state_fn p = StFinished.
Proof.
  intros C V. specialize (C []). unfold pcompat in C.
  destruct (state_fn p); try reflexivity; exfalso; cbn [compat] in C; unfold hphase in C;
    try destruct (parser_type p); try discriminate V; try discriminate C; try contradiction;
    repeat match goal with H : _ \/ _ |- _ => destruct H | H : _ /\ _ |- _ => destruct H end;
    try discriminate; try congruence.
Qed.

Lemma client_order h fuel : forall ph p log segs p' log' rest o,
  vstate (parser_type p) (state_fn p) = true -> rcompat p ph ->
  client fuel h p log segs = (p', log', rest, o) ->
  exists x ph', log' = log ++ x /\ prun ph x = Some ph' /\
    match o with OEos | OFinished | OError _ => rcompat p' ph' | _ => True end /\
    (o = OFinished -> state_fn p' = StFinished) /\
    (ph' = PDone -> o = OFinished \/ o = OFuel \/ (segs = [] /\ ph = PDone)).
Proof.
  induction fuel as [|fuel IH]; intros ph p log segs p' log' rest o V C E; cbn [client] in E.
  - destruct segs; injection E as <- <- <- <-; exists [], ph; repeat split; auto; try discriminate; now rewrite app_nil_r.
  - destruct segs as [|seg more].
    { injection E as <- <- <- <-; exists [], ph; repeat split; auto; try discriminate; now rewrite app_nil_r. }
    destruct (resume h p log seg) as [[p1 log1] r] eqn:R.
    pose proof (rf_vstate _ _ _ _ _ _ (resume_facts_all _ _ _ _ _ _ _ V R)) as V1.
    pose proof (rf_fin _ _ _ _ _ _ (resume_facts_all _ _ _ _ _ _ _ V R)) as RF.
    pose proof (rf_err _ _ _ _ _ _ (resume_facts_all _ _ _ _ _ _ _ V R)) as RE.
    apply (resume_order h ph) in R; auto. destruct R as (x & ph1 & -> & X2 & X3 & X4).
    destruct r as [[n|n|n]|e|f|];
      try (injection E as <- <- <- <-; exists x, ph1; repeat split; auto; try discriminate;
           first [intros _; now destruct (RF n eq_refl) as (_ & RF' & _)
                 |intros ->; exfalso; try (apply X3; reflexivity);
                  destruct (RE e eq_refl) as [Q _]; rewrite (done_finished _ X3 V1) in Q; discriminate]);
      apply (IH ph1) in E; auto; destruct E as (y & ph2 & -> & Y2 & Y3 & Y4 & Y5);
      exists (x ++ y), ph2; (split; [now rewrite app_assoc|]); (split; [now rewrite prun_app, X2|]);
      (split; [exact Y3|]); (split; [exact Y4|]); intros D; destruct (Y5 D) as [Q|[Q|[Q1 Q2]]]; auto.
    + discriminate Q1.
    + exfalso. subst ph1. specialize (X4 n eq_refl). rewrite (done_finished _ X3 V1) in X4. discriminate X4.
Qed.

Lemma rcompat_reset p : rcompat (reset p) (phase0 (parser_type p)).
Proof.
  intros r. unfold pcompat, reset. cbn [parser_type].
  destruct (parser_type p) eqn:T; cbn [p_set_state set_lower14 with_bits state_fn parser_type]; rewrite ?T;
    cbn [compat phase0]; auto.
  left. split; [reflexivity|]. vm_compute. discriminate.
Qed.

Lemma feed_phases h ph p segs p' log rest o :
  vstate (parser_type p) (state_fn p) = true -> rcompat p ph -> ph <> PDone ->
  feed h p segs = (p', log, rest, o) ->
  exists ph', prun ph log = Some ph' /\ (o = OFinished <-> ph' = PDone).
Proof.
  intros V R N E. pose proof (feed_ends h p segs V) as G. rewrite E in G. cbn [snd] in G.
  unfold feed in E. apply (client_order _ _ ph) in E; auto.
  destruct E as (x & ph' & -> & X & C & F & D). exists ph'. split; [exact X|]. split.
  - intros ->. specialize (C []). unfold pcompat in C. now rewrite F in C.
  - intros Q. destruct (D Q) as [?|[?|[_ ?]]]; [assumption|contradiction|contradiction].
Qed.

(* In order, and complete exactly when the parser has finished. *)
Lemma feed_order h p segs p' log rest o :
  feed h (reset p) segs = (p', log, rest, o) ->
  exists ph, prun (phase0 (parser_type p)) log = Some ph /\ (o = OFinished <-> ph = PDone).
Proof.
  apply feed_phases.
  - unfold reset. cbn [parser_type]. destruct (parser_type p) eqn:T; cbn; now rewrite ?T.
  - apply rcompat_reset.
  - now destruct (parser_type p).
Qed.

(* ------------------------------------------------------------------ *)
(* Statements                                                           *)
(* ------------------------------------------------------------------ *)

Lemma feed_new_order h segs p' log rest o :
  feed h new segs = (p', log, rest, o) ->
  exists ph, prun HStart log = Some ph /\ (o = OFinished <-> ph = PDone).
Proof. apply feed_phases; [reflexivity|intros r; reflexivity|discriminate]. Qed.

Lemma feed_length_order h p n segs p' log rest o :
  feed h (set_length (init_url_encoded p) n) segs = (p', log, rest, o) ->
  exists ph, prun UStart log = Some ph /\ (o = OFinished <-> ph = PDone).
Proof. apply feed_phases; [reflexivity|intros r; now left|discriminate]. Qed.

Lemma feed_boundary_order h p bd segs p' log rest o :
  feed h (set_boundary (init_multipart p) bd) segs = (p', log, rest, o) ->
  exists ph, prun MStart log = Some ph /\ (o = OFinished <-> ph = PDone).
Proof.
  apply feed_phases; [reflexivity| |discriminate].
  intros r. left. split; [reflexivity|]. vm_compute. discriminate.
Qed.

(* Chunk data still due. *)
Definition due (ph : phase) : option N :=
  match ph with
  | CBegun | CTrailer | CEnd | PDone | CStart => Some 0
  | CLen n | CName n | CVal n | CExt n | CData n => Some n
  | _ => None
  end.

Definition is_len (e : event) : bool := match e with EChunkLength _ => true | _ => false end.

Lemma due_step ph e ph' n :
  due ph = Some n -> is_len e = false -> pstep ph e = Some ph' ->
  exists n', due ph' = Some n' /\ n = N.of_nat (List.length (data_of KChunkData [e])) + n'.
Proof.
  intros D L E.
  destruct ph; try discriminate D; injection D as <-; destruct e as [k d| | | | | | | | | | | | ];
    try destruct k; cbn [is_len] in L; try discriminate L; cbn [pstep] in E; try discriminate E;
    try (destruct (N.eqb_spec n0 0) in E; try discriminate E);
    try (injection E as <-; eexists; split; [reflexivity|cbn; lia]).
  all: destruct (N.leb_spec (N.of_nat (List.length d)) n0) in E; [|discriminate E].
  all: injection E as <-; eexists; split; [reflexivity|]; cbn [data_of];
    destruct (dkind_dec _ _); [|congruence]; rewrite app_nil_r; lia.
Qed.

Lemma data_of_app k a b : data_of k (a ++ b) = data_of k a ++ data_of k b.
Proof.
  induction a as [|e a IH]; [reflexivity|]. cbn [app data_of].
  destruct e; try exact IH. destruct (dkind_dec k k0); [|exact IH]. now rewrite IH, app_assoc.
Qed.

Lemma due_run b : forall ph n ph',
  due ph = Some n -> Forall (fun e => is_len e = false) b -> prun ph b = Some ph' ->
  exists n', due ph' = Some n' /\ n = N.of_nat (List.length (data_of KChunkData b)) + n'.
Proof.
  induction b as [|e b IH]; intros ph n ph' D F E; cbn [prun] in E.
  - injection E as <-. exists n. split; [exact D|cbn; lia].
  - inversion F as [|? ? F1 F2]; subst. destruct (pstep ph e) as [ph1|] eqn:S; [|discriminate].
    destruct (due_step _ _ _ _ D F1 S) as (n1 & D1 & ->).
    destruct (IH _ _ _ D1 F2 E) as (n2 & D2 & ->). exists n2. split; [exact D2|].
    change (e :: b) with ([e] ++ b). rewrite data_of_app, app_length. lia.
Qed.

Lemma prun_inv ph a b ph' : prun ph (a ++ b) = Some ph' ->
  exists ph1, prun ph a = Some ph1 /\ prun ph1 b = Some ph'.
Proof. rewrite prun_app. destruct (prun ph a) as [ph1|]; [|discriminate]. eauto. Qed.

Lemma len_step ph n ph' : pstep ph (EChunkLength n) = Some ph' -> ph = CBegun /\ ph' = CLen n.
Proof. destruct ph; try discriminate. intros [= <-]. auto. Qed.

(* At most the announced length; exactly that before the next announcement. *)
Lemma chunk_lengths h q segs p' log rest o a n b :
  feed h (init_chunked q) segs = (p', log, rest, o) ->
  log = a ++ EChunkLength n :: b -> Forall (fun e => is_len e = false) b ->
  N.of_nat (List.length (data_of KChunkData b)) <= n.
Proof.
  intros E -> F. apply (feed_order h (with_type q Chunked)) in E. destruct E as (ph & E & _).
  apply prun_inv in E. destruct E as (ph1 & _ & E). cbn [prun] in E.
  destruct (pstep ph1 _) as [ph2|] eqn:S; [|discriminate]. apply len_step in S. destruct S as [-> ->].
  destruct (due_run b (CLen n) n ph eq_refl F E) as (n' & _ & ->). lia.
Qed.

Lemma chunk_lengths_exact h q segs p' log rest o a n b m c :
  feed h (init_chunked q) segs = (p', log, rest, o) ->
  log = a ++ EChunkLength n :: b ++ EChunkLength m :: c -> Forall (fun e => is_len e = false) b ->
  N.of_nat (List.length (data_of KChunkData b)) = n.
Proof.
  intros E -> F. apply (feed_order h (with_type q Chunked)) in E. destruct E as (ph & E & _).
  apply prun_inv in E. destruct E as (ph1 & _ & E). cbn [prun] in E.
  destruct (pstep ph1 _) as [ph2|] eqn:S; [|discriminate]. apply len_step in S. destruct S as [-> ->].
  apply prun_inv in E. destruct E as (ph3 & E1 & E2). cbn [prun] in E2.
  destruct (pstep ph3 _) as [ph4|] eqn:S; [|discriminate]. apply len_step in S. destruct S as [-> ->].
  destruct (due_run b (CLen n) n CBegun eq_refl F E1) as (n' & [= <-] & ->). lia.
Qed.

(* Phases that end in another announcement. *)
Definition stuck (ph : phase) : bool :=
  match ph with CBegun | CName _ | CVal _ | CExt _ | CData _ => true | _ => false end.

Lemma stuck_run b : forall ph, stuck ph = true -> Forall (fun e => is_len e = false) b ->
  prun ph b = Some PDone -> False.
Proof.
  induction b as [|e b IH]; intros ph S F E; cbn [prun] in E.
  - injection E as ->. discriminate.
  - inversion F as [|? ? F1 F2]; subst. destruct (pstep ph e) as [ph1|] eqn:P; [|discriminate].
    apply (IH ph1); auto. clear - S F1 P.
    destruct ph; try discriminate S; destruct e as [k d| | | | | | | | | | | | ];
      try destruct k; try discriminate F1; cbn [pstep] in P; try discriminate P;
      try (destruct (_ =? 0) in P; try discriminate P); try (destruct (_ <=? _) in P; try discriminate P);
      injection P as <-; reflexivity.
Qed.

Lemma finished_lengths h q segs p' log rest a n b :
  feed h (init_chunked q) segs = (p', log, rest, OFinished) ->
  log = a ++ EChunkLength n :: b -> Forall (fun e => is_len e = false) b ->
  n = 0 /\ data_of KChunkData b = [].
Proof.
  intros E -> F. apply (feed_order h (with_type q Chunked)) in E. destruct E as (ph & E & D).
  rewrite (proj1 D eq_refl) in E. clear D.
  apply prun_inv in E. destruct E as (ph1 & _ & E). cbn [prun] in E.
  destruct (pstep ph1 _) as [ph2|] eqn:S; [|discriminate]. apply len_step in S. destruct S as [-> ->].
  destruct (due_run b (CLen n) n PDone eq_refl F E) as (n' & [= <-] & E').
  assert (Z : n = 0).
  { clear E'. destruct b as [|e b]; [discriminate|]. inversion_clear F as [|? ? F1 F2]. cbn [prun] in E.
    destruct (pstep (CLen n) e) as [ph1|] eqn:S; [|discriminate].
    destruct e as [k d| | | | | | | | | | | | ]; try destruct k; cbn [pstep] in S; try discriminate S;
      try (destruct (N.eqb_spec n 0); [assumption|discriminate S]);
      injection S as <-; exfalso; revert F2 E; now apply stuck_run. }
  split; [exact Z|]. apply length_zero_iff_nil. lia.
Qed.

Lemma no_len b : (forall m, ~ In (EChunkLength m) b) -> Forall (fun e => is_len e = false) b.
Proof. intros H. apply Forall_forall. intros e I. destruct e; try reflexivity. now apply H in I. Qed.

Lemma chunk_data_at_most h q segs p' log rest o a n b :
  feed h (init_chunked q) segs = (p', log, rest, o) ->
  log = a ++ EChunkLength n :: b -> (forall m, ~ In (EChunkLength m) b) ->
  N.of_nat (List.length (data_of KChunkData b)) <= n.
Proof. intros E1 E2 F. exact (chunk_lengths _ _ _ _ _ _ _ _ _ _ E1 E2 (no_len _ F)). Qed.

Lemma chunk_data_exact h q segs p' log rest o a n b m c :
  feed h (init_chunked q) segs = (p', log, rest, o) ->
  log = a ++ EChunkLength n :: b ++ EChunkLength m :: c -> (forall m, ~ In (EChunkLength m) b) ->
  N.of_nat (List.length (data_of KChunkData b)) = n.
Proof. intros E1 E2 F. exact (chunk_lengths_exact _ _ _ _ _ _ _ _ _ _ _ _ E1 E2 (no_len _ F)). Qed.

Lemma last_chunk h q segs p' log rest a n b :
  feed h (init_chunked q) segs = (p', log, rest, OFinished) ->
  log = a ++ EChunkLength n :: b -> (forall m, ~ In (EChunkLength m) b) ->
  n = 0 /\ data_of KChunkData b = [].
Proof. intros E1 E2 F. exact (finished_lengths _ _ _ _ _ _ _ _ _ E1 E2 (no_len _ F)). Qed.

Lemma head_order h q segs p' log rest o :
  feed h (init_head q) segs = (p', log, rest, o) ->
  exists ph, prun HStart log = Some ph /\ (o = OFinished <-> ph = PDone).
Proof. exact (feed_order h (with_type q Head) segs p' log rest o). Qed.

Lemma chunked_order h q segs p' log rest o :
  feed h (init_chunked q) segs = (p', log, rest, o) ->
  exists ph, prun CStart log = Some ph /\ (o = OFinished <-> ph = PDone).
Proof. exact (feed_order h (with_type q Chunked) segs p' log rest o). Qed.
