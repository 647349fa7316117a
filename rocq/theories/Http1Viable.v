(* Every state in which the automaton waits for input can still reach the end
   of the message. *)

From Coq Require Import NArith List Bool Arith String Lia.
From Verif Require Import Bytes ByteStream Http1Model Http1Base Http1Wp Http1Term Http1Spec Http1Sem
  Http1Sim Http1Step Http1Misc Http1Run Http1Client Http1Api Http1Protocol Http1Data Http1Wire
  Http1Round Http1Round2 Http1Accept Http1Verdict Http1Parse Http1Parse2 Http1Parse3 Http1Parse4.
Import ListNotations.
Local Open Scope N_scope.

Section Can.
  Variables (t : ptype) (bd : option (list byte)) (clen : list fevent -> option N).

  (* Some input finishes the message, whatever was seen before. *)
  Definition can (a : astate) : Prop := forall l, exists x L, finishes (aexec t bd clen a l x) (l ++ L) [].

  Lemma can_byte a b ev a' : needs_byte (a_st a) = true -> abyte_raw bd a b = AGo ev a' -> can (nrm t a') -> can a.
  Proof.
    intros N R C l. destruct (C (l ++ ev)) as (x & L & F). exists (b :: x), (ev ++ L).
    rewrite app_assoc. destruct F as (aF & F & S). exists aF. split; [|exact S].
    rewrite aexec_byte by exact N. unfold abyte. rewrite R. exact F.
  Qed.

  Lemma can_eps a : (forall l, exists ev a', aeps t clen l a = Some (ev, a') /\ can a') -> can a.
  Proof.
    intros H l. destruct (H l) as (ev & a' & E & C). destruct (C (l ++ ev)) as (x & L & F). exists x, (ev ++ L).
    rewrite app_assoc. destruct F as (aF & F & S). exists aF. split; [|exact S].
    now rewrite (aexec_eps _ _ _ _ _ _ _ _ E).
  Qed.

  Lemma can_finished a : a_st a = StFinished -> can a.
  Proof.
    intros S l. exists [], []. exists a. split; [|exact S]. rewrite app_nil_r. now apply aexec_finished.
  Qed.

  (* The states of a run. *)
  Lemma run_keeps (P : astate -> Prop) :
    (forall a b ev a', P a -> abyte_raw bd a b = AGo ev a' -> P (nrm t a')) ->
    (forall a l ev a', P a -> aeps t clen l a = Some (ev, a') -> P a') ->
    forall s a l L a' r, P a -> aexec t bd clen a l s = ADone L a' r -> P a'.
  Proof.
    intros HB HE.
    assert (CL : forall n a l l1 a1, P a -> aclose n t clen l a = (l1, a1) -> P a1).
    { induction n as [|n IH]; intros a l l1 a1 Pa E; cbn [aclose] in E; [now injection E as _ <-|].
      destruct (aeps t clen l a) as [[ev a']|] eqn:X; [|now injection E as _ <-].
      apply (IH a' _ _ _ (HE _ _ _ _ Pa X) E). }
    induction s as [|b s IH]; intros a l L a' r Pa E; unfold aexec in E; fold aexec in E;
      destruct (aclose 3 t clen l a) as [l1 a1] eqn:C; pose proof (CL _ _ _ _ _ Pa C) as P1.
    - destruct (a_st a1); try discriminate E; injection E as _ <- _; exact P1.
    - destruct (a_st a1); try discriminate E;
        try (injection E as _ <- _; exact P1);
        unfold abyte in E; destruct (abyte_raw bd a1 b) as [ev a2|ev e|] eqn:R; try discriminate E;
        apply (IH _ _ _ _ _ (HB _ _ _ _ P1 R) E).
  Qed.
End Can.

Ltac eat b := eapply (can_byte _ _ _ _ b); [reflexivity|cbn; reflexivity|cbn [nrm st st_lo st_up st_len a_st a_lo a_up a_len uses_lo uses_up uses_hex]].
Ltac eps := apply can_eps; intros ?; eexists _, _; split; [reflexivity|cbn [nrm st st_lo st_up st_len a_st a_lo a_up a_len uses_lo uses_up uses_hex]].
Ltac fin := apply can_finished; reflexivity.

(* ------------------------------------------------------------------ *)
(* Heads                                                                *)
(* ------------------------------------------------------------------ *)

Definition end_state (x : aout) : option pstate :=
  match x with ADone _ a [] => Some (a_st a) | _ => None end.

(* What is left, at least, in a state of a head. *)
Definition head_left (s : pstate) : list byte :=
  let fields := [10; 13; 10] in
  let version := bs "1.1" ++ [13] ++ fields in
  let status := bs "200 a" ++ [13] ++ fields in
  match s with
  | StStripDetect | StDetect1 => bs "G / HTTP/" ++ version
  | StDetect2 | StDetect3 | StDetect4 | StDetect5 => bs "G / HTTP/" ++ version
  | StRequestMethod => bs " / HTTP/" ++ version
  | StRequestUrl1 => bs "/ HTTP/" ++ version
  | StRequestUrl2 => bs " HTTP/" ++ version
  | StRequestHttp1 => bs "HTTP/" ++ version
  | StRequestHttp2 => bs "TTP/" ++ version
  | StRequestHttp3 => bs "TP/" ++ version
  | StRequestHttp4 => bs "P/" ++ version
  | StRequestHttp5 => bs "/" ++ version
  | StRequestVersionMajor1 => version
  | StRequestVersionMajor2 | StRequestVersionMajor3 | StRequestVersionPeriod => bs ".1" ++ [13] ++ fields
  | StRequestVersionMinor1 => bs "1" ++ [13] ++ fields
  | StRequestVersionMinor2 | StRequestVersionMinor3 | StRequestVersionCr => [13] ++ fields
  | StResponseVersionMajor1 => bs "1.1 " ++ status
  | StResponseVersionMajor2 | StResponseVersionMajor3 | StResponseVersionPeriod => bs ".1 " ++ status
  | StResponseVersionMinor1 => bs "1 " ++ status
  | StResponseVersionMinor2 | StResponseVersionMinor3 | StResponseVersionSpace => bs " " ++ status
  | StResponseStatusCode1 => status
  | StResponseStatusCode2 => bs "00 a" ++ [13] ++ fields
  | StResponseStatusCode3 => bs "0 a" ++ [13] ++ fields
  | StResponseStatusCodeSpace => bs " a" ++ [13] ++ fields
  | StResponseStatus1 => bs "a" ++ [13] ++ fields
  | StResponseStatus2 => [13] ++ fields
  | StInitialLf => fields
  | StCheckHeaderName | StFirstHeaderName | StUpperHeaderName | StLowerHeaderName => bs ":a" ++ [13] ++ fields
  | StStripHeaderValue => bs "a" ++ [13] ++ fields
  | StHeaderValue => [13] ++ fields
  | StHeaderQuotedValue => [34; 13] ++ fields
  | StHeaderEscapedValue => [97; 34; 13] ++ fields
  | StHeaderLf1 => fields
  | StHeaderCr2 => [13; 10]
  | StHeaderLf2 => [10]
  | _ => []
  end.

Lemma log_grows t bd clen s : forall a l L a' r, aexec t bd clen a l s = ADone L a' r -> exists y, L = l ++ y.
Proof.
  assert (CL : forall n a l l1 a1, aclose n t clen l a = (l1, a1) -> exists y, l1 = l ++ y).
  { induction n as [|n IH]; intros a l l1 a1 E; cbn [aclose] in E.
    - injection E as <- _. exists []. now rewrite app_nil_r.
    - destruct (aeps t clen l a) as [[ev a']|]; [|injection E as <- _; exists []; now rewrite app_nil_r].
      destruct (IH _ _ _ _ E) as (y & ->). exists (ev ++ y). now rewrite app_assoc. }
  induction s as [|b s IH]; intros a l L a' r E; unfold aexec in E; fold aexec in E;
    destruct (aclose 3 t clen l a) as [l1 a1] eqn:C; destruct (CL _ _ _ _ _ C) as (y & ->).
  - destruct (a_st a1); try discriminate E; injection E as <- _ _; eauto.
  - destruct (a_st a1); try discriminate E; try (injection E as <- _ _; eauto; fail);
      destruct (abyte t bd a1 b) as [ev a2|ev e|]; try discriminate E;
      destruct (IH _ _ _ _ _ E) as (z & ->); exists (y ++ ev ++ z); now rewrite !app_assoc.
Qed.

Lemma can_end t bd clen a x : (forall l, end_state (aexec t bd clen a l x) = Some StFinished) -> can t bd clen a.
Proof.
  intros H l. specialize (H l). destruct (aexec t bd clen a l x) as [L aF r| |] eqn:E; try discriminate H.
  destruct r; [|discriminate H]. injection H as H. destruct (log_grows _ _ _ _ _ _ _ _ _ E) as (y & ->).
  exists x, y, aF. now split.
Qed.

Lemma head_can bd clen s lo up len : vstate Head s = true -> needs_byte s = true -> can Head bd clen (A s lo up len).
Proof.
  intros V N. apply can_end with (x := head_left s). intros l.
  destruct s; try discriminate V; try discriminate N; lazy; reflexivity.
Qed.

(* Header fields of other messages. *)
Lemma fields_can t bd clen lo up len s : t = Chunked \/ t = Multipart ->
  (forall l, exists ev a', aeps t clen l (A StHeaderEnd (a_lo (nrm t (A s lo up len))) (a_up (nrm t (A s lo up len))) len) = Some (ev, a') /\ can t bd clen a') ->
  match s with
  | StCheckHeaderName | StFirstHeaderName | StUpperHeaderName | StLowerHeaderName
  | StStripHeaderValue | StHeaderValue | StHeaderQuotedValue | StHeaderEscapedValue
  | StHeaderLf1 | StHeaderCr2 | StHeaderLf2 => true
  | _ => false
  end = true -> can t bd clen (nrm t (A s lo up len)).
Proof.
  intros T H S.
  assert (X1 : can t bd clen (nrm t (A StHeaderEnd lo up len))).
  { destruct T as [-> | ->]; apply can_eps; exact H. }
  assert (X2 : can t bd clen (nrm t (A StHeaderLf2 lo up len))) by (destruct T as [-> | ->]; eat 10; exact X1).
  assert (X3 : can t bd clen (nrm t (A StHeaderCr2 lo up len))) by (destruct T as [-> | ->]; eat 13; exact X2).
  assert (X4 : can t bd clen (nrm t (A StHeaderLf1 lo up len))) by (destruct T as [-> | ->]; eat 10; exact X3).
  assert (X5 : can t bd clen (nrm t (A StHeaderValue lo up len))) by (destruct T as [-> | ->]; eat 13; exact X4).
  assert (X6 : can t bd clen (nrm t (A StHeaderQuotedValue lo up len))) by (destruct T as [-> | ->]; eat 34; exact X5).
  assert (X7 : can t bd clen (nrm t (A StHeaderEscapedValue lo up len))) by (destruct T as [-> | ->]; eat 97; exact X6).
  assert (X8 : can t bd clen (nrm t (A StStripHeaderValue lo up len))) by (destruct T as [-> | ->]; eat 97; exact X5).
  destruct s; try discriminate S; try assumption; destruct T as [-> | ->]; eat 58; exact X8.
Qed.

(* ------------------------------------------------------------------ *)
(* Chunked bodies                                                       *)
(* ------------------------------------------------------------------ *)

Section Chunks.
  Variables (bd : option (list byte)) (clen : list fevent -> option N).
  Notation can := (can Chunked bd clen).
  Notation C s len := (A s 0 0 len).

  Lemma chunk_fields s len :
    match s with
    | StCheckHeaderName | StFirstHeaderName | StUpperHeaderName | StLowerHeaderName
    | StStripHeaderValue | StHeaderValue | StHeaderQuotedValue | StHeaderEscapedValue
    | StHeaderLf1 | StHeaderCr2 | StHeaderLf2 => true
    | _ => false
    end = true -> can (C s len).
  Proof.
    intros S. apply (fields_can Chunked bd clen 0 0 len s (or_introl eq_refl)); [|exact S].
    intros l. cbn [nrm a_lo a_up]. eexists _, _. split; [reflexivity|]. eps. fin.
  Qed.

  Lemma can_length1 len : can (C StChunkLength1 len).
  Proof.
    (* a chunk of one byte, then the last one *)
    eat 49. eat 13. eps. eat 10. eat 97. eat 13. eat 10. eat 48. eat 13. now apply chunk_fields.
  Qed.

  Lemma can_data : forall n len, N.to_nat len = n -> can (C StChunkData len) /\ can (C StChunkDataCr len).
  Proof.
    assert (CR : forall len, can (C StChunkDataCr len)) by (intros len; eat 13; eat 10; apply can_length1).
    induction n as [|n IH]; intros len E; (split; [|apply CR]).
    - assert (len = 0) as -> by lia. eat 13. eat 10. apply can_length1.
    - eapply (can_byte _ _ _ _ 97); [reflexivity| |].
      + cbn [abyte_raw a_st]. unfold a_by_length. cbn [a_len].
        destruct (N.eqb_spec len 0); [lia|]. reflexivity.
      + destruct (N.eqb_spec len 1) as [->|NE]; [apply CR|]. apply (IH (len - 1)). lia.
  Qed.

  Lemma can_lf len : can (C StChunkLengthLf len).
  Proof. eat 10. now apply (can_data (N.to_nat len)). Qed.

  Lemma can_extensions len : can (C StChunkExtensionsFinished len).
  Proof. eps. apply can_lf. Qed.

  Lemma can_cr s len : abyte_raw bd (C s len) 13 = a_chunk_cr (C s len) 13 -> needs_byte s = true -> can (C s len).
  Proof.
    intros E N. eapply (can_byte _ _ _ _ 13); [exact N|rewrite E; reflexivity|].
    cbn [a_len nrm st a_st a_lo a_up]. destruct (len =? 0); [now apply chunk_fields|apply can_extensions].
  Qed.

  Lemma chunk_can s len : vstate Chunked s = true -> needs_byte s = true -> can (C s len).
  Proof.
    intros V N.
    assert (X1 : can (C StLowerChunkExtensionName len)) by (eat 13; apply can_extensions).
    assert (X2 : can (C StChunkExtensionValue len)) by (eat 13; apply can_extensions).
    assert (X3 : can (C StChunkExtensionQuotedValue len)) by (eat 34; exact X2).
    destruct s; try discriminate V; try discriminate N; try (now apply chunk_fields);
      try (now apply can_cr); try (apply can_length1); try apply can_lf; try assumption.
    - eat 97; exact X1.
    - eat 97; exact X1.
    - eat 97; exact X2.
    - eat 97; exact X3.
    - eat 13. apply can_extensions.
    - now apply (can_data (N.to_nat len)).
    - now apply (can_data (N.to_nat len)).
    - eat 10. apply can_length1.
  Qed.
End Chunks.

(* ------------------------------------------------------------------ *)
(* Multipart bodies                                                     *)
(* ------------------------------------------------------------------ *)

Section Parts.
  Variables (bd : list byte) (clen : list fevent -> option N).
  Notation can := (can Multipart (Some bd) clen).

  (* Of the upper number, which counts the bytes of the boundary read. *)
  Definition minv (a : astate) : Prop :=
    vstate Multipart (a_st a) = true /\
    match a_st a with StMultipartBoundary => (N.to_nat (a_up a) < List.length bd)%nat \/ (bd = [] /\ a_up a = 0) | _ => a_up a = 0 end.

  Lemma minv_byte a b ev a' : minv a -> abyte_raw (Some bd) a b = AGo ev a' -> minv (nrm Multipart a').
  Proof.
    intros [V I] R. cbn [nrm]. destruct a as [s lo up len]. cbn [a_st a_up] in *.
    assert (NB : (N.to_nat 0 < List.length bd)%nat \/ (bd = [] /\ 0 = 0)) by (destruct bd; [right; now split|left; cbn; lia]).
    destruct s; try discriminate V;
      try (cbn [abyte_raw a_st] in R; try discriminate R; cases R; split; cbn [a_st a_up nrm st st_lo st_up st_len]; auto; rewrite I; exact NB).
    (* StMultipartBoundary *)
    cbn [abyte_raw a_st a_boundary a_up a_lo] in R. destruct I as [I|[Eb ->]].
    2: { rewrite Eb in R. cbn in R. cases R; now split. }
    destruct (nth_error bd (N.to_nat up)) as [x|] eqn:X; [|apply nth_error_None in X; lia].
    destruct (b =? x).
    - destruct (Nat.eqb_spec (S (N.to_nat up)) (List.length bd)); injection R as <- <-; split; cbn [a_st a_up st_up]; auto.
      left. rewrite N2Nat.inj_add. change (N.to_nat 1) with 1%nat. lia.
    - destruct (lo =? 0); [|discriminate R]. unfold a_by_byte in R.
      destruct (b =? 13); cbn [with_ev] in R; injection R as <- <-; split; cbn [a_st a_up st st_up]; auto.
  Qed.

  Lemma minv_eps a l ev a' : minv a -> aeps Multipart clen l a = Some (ev, a') -> minv a'.
  Proof.
    intros [V I] E. destruct a as [s lo up len]. cbn [a_st a_up] in *.
    destruct s; try discriminate V; try discriminate E; cbn [aeps a_st] in E.
    all: try destruct (clen l); injection E as <- <-; split; cbn [a_st a_up nrm st]; auto.
  Qed.

  Lemma can_boundary_cr lo len : can (A StMultipartBoundaryCr lo 0 len).
  Proof. eat 45. eat 45. eps. fin. Qed.

  Lemma can_boundary lo len : forall k up, (k + N.to_nat up = List.length bd)%nat -> (k <> 0)%nat ->
    can (A StMultipartBoundary lo up len).
  Proof.
    induction k as [|k IH]; intros up E N; [congruence|].
    destruct (nth_error bd (N.to_nat up)) as [x|] eqn:X; [|apply nth_error_None in X; lia].
    eapply (can_byte _ _ _ _ x); [reflexivity| |].
    - cbn [abyte_raw a_st a_boundary a_up]. rewrite X, N.eqb_refl. reflexivity || idtac.
      instantiate (1 := if Nat.eqb (S (N.to_nat up)) (List.length bd) then A StMultipartBoundaryCr lo 0 len
                        else A StMultipartBoundary lo (up + 1) len).
      instantiate (1 := []). destruct (Nat.eqb (S (N.to_nat up)) (List.length bd)); reflexivity.
    - cbn [nrm]. destruct (Nat.eqb_spec (S (N.to_nat up)) (List.length bd)) as [Y|Y]; [apply can_boundary_cr|].
      apply (IH (up + 1)); lia.
  Qed.

  Lemma can_boundary0 lo len : can (A StMultipartBoundary lo 0 len).
  Proof.
    destruct (list_eq_dec N.eq_dec bd []) as [Eb|Hbd].
    - eapply (can_byte _ _ _ _ 45); [reflexivity| |].
      + cbn [abyte_raw a_st a_boundary a_up]. rewrite Eb. reflexivity.
      + cbn [nrm]. eat 45. eps. fin.
    - apply (can_boundary lo len (List.length bd) 0); [cbn; lia|]. intros X. now apply Hbd, length_zero_iff_nil.
  Qed.

  Lemma can_hyphen1 lo len : can (A StMultipartHyphen1 lo 0 len).
  Proof.
    eat 45. eat 45. apply can_boundary0.
  Qed.

  Lemma can_by_byte lo len : can (A StMultipartDataByByte lo 0 len).
  Proof. eat 13. eat 10. apply can_hyphen1. Qed.

  Lemma can_by_length lo : forall n len, N.to_nat len = n ->
    can (A StMultipartDataByLength lo 0 len) /\ can (A StMultipartDataByLengthCr lo 0 len).
  Proof.
    assert (CR : forall len, can (A StMultipartDataByLengthCr lo 0 len)) by (intros len; eat 13; eat 10; apply can_hyphen1).
    induction n as [|n IH]; intros len E; (split; [|apply CR]).
    - assert (len = 0) as -> by lia. eat 13. eat 10. apply can_hyphen1.
    - eapply (can_byte _ _ _ _ 97); [reflexivity| |].
      + cbn [abyte_raw a_st]. unfold a_by_length. cbn [a_len].
        destruct (N.eqb_spec len 0); [lia|]. reflexivity.
      + destruct (N.eqb_spec len 1) as [->|NE]; [apply CR|]. apply (IH (len - 1)). lia.
  Qed.

  Lemma can_detect lo len : can (A StMultipartDetectData lo 0 len).
  Proof.
    apply can_eps. intros l. destruct (clen l) as [n|] eqn:E.
    - exists [FEv EContentLength], (A StMultipartDataByLength 1 0 n). split; [cbn [aeps a_st]; now rewrite E|].
      now apply (can_by_length 1 (N.to_nat n)).
    - exists [FEv EContentLength], (A StMultipartDataByByte 0 0 len). split; [cbn [aeps a_st]; now rewrite E|].
      apply can_by_byte.
  Qed.

  Lemma part_can a : minv a -> needs_byte (a_st a) = true -> can a.
  Proof.
    destruct a as [s lo up len]. intros [V I] N. cbn [a_st a_up] in *.
    assert (H : forall s, match s with
      | StCheckHeaderName | StFirstHeaderName | StUpperHeaderName | StLowerHeaderName
      | StStripHeaderValue | StHeaderValue | StHeaderQuotedValue | StHeaderEscapedValue
      | StHeaderLf1 | StHeaderCr2 | StHeaderLf2 => true
      | _ => false
      end = true -> can (A s lo 0 len)).
    { intros s' S. apply (fields_can Multipart (Some bd) clen lo 0 len s' (or_intror eq_refl)); [|exact S].
      intros l. cbn [nrm a_lo a_up]. eexists _, _. split; [reflexivity|]. apply can_detect. }
    destruct s; try discriminate V; try discriminate N; try (subst up; now apply H); try (subst up).
    - eat 10. now apply H.
    - apply can_hyphen1.
    - eat 45. apply can_boundary0.
    - destruct I as [I|[_ ->]]; [|apply can_boundary0]. apply (can_boundary lo len (List.length bd - N.to_nat up)); lia.
    - apply can_by_byte.
    - now apply (can_by_length lo (N.to_nat len)).
    - now apply (can_by_length lo (N.to_nat len)).
    - eat 10. apply can_hyphen1.
    - eat 10. apply can_hyphen1.
    - apply can_boundary_cr.
    - eat 45. eps. fin.
  Qed.
End Parts.

(* ------------------------------------------------------------------ *)
(* Verdicts                                                             *)
(* ------------------------------------------------------------------ *)

Lemma vstate_byte t bd a b ev a' : t <> Multipart ->
  vstate t (a_st a) = true -> abyte_raw bd a b = AGo ev a' -> vstate t (a_st (nrm t a')) = true.
Proof.
  intros T V R. destruct a as [s lo up len]. cbn [a_st] in V.
  replace (a_st (nrm t a')) with (a_st a') by now destruct t.
  destruct t; try congruence; destruct s; try discriminate V; cbn [abyte_raw a_st] in R; try discriminate R; cases R; reflexivity.
Qed.

Lemma vstate_eps t clen l a ev a' : t <> Multipart ->
  vstate t (a_st a) = true -> aeps t clen l a = Some (ev, a') -> vstate t (a_st a') = true.
Proof.
  intros T V E. destruct a as [s lo up len]. cbn [a_st] in V.
  destruct t; try congruence; destruct s; try discriminate V; try discriminate E; cbn [aeps a_st] in E;
    injection E as <- <-; reflexivity.
Qed.

Lemma verdict h clen p segs p' log rest o (G : list byte -> list fevent -> Prop) :
  (forall l, h_clen h l = clen (flat l)) ->
  rinv2 p (hd [] segs) (List.concat (tl segs)) -> segs <> [] -> state_fn p <> StDetect1 ->
  parser_type p <> UrlEncoded ->
  (forall w L r, G w L -> finishes (psem clen p [] (w ++ r)) L r) ->
  (forall s L r, finishes (psem clen p [] s) L r -> exists w, s = w ++ r /\ G w L) ->
  (forall s L a, psem clen p [] s = ADone L a [] -> needs_byte (a_st a) = true ->
     can (parser_type p) (boundary p) clen a) ->
  feed h p segs = (p', log, rest, o) ->
  right_verdict G (List.concat segs) (flat log) rest o.
Proof.
  intros Hc I NE D T RG IG CG F.
  assert (RS : rsem clen p [] (List.concat segs) = psem clen p [] (List.concat segs)).
  { unfold rsem. destruct (parser_type p); congruence. }
  assert (EN : o <> OFuel).
  { pose proof (feed_ends h p segs (ri2_state _ _ _ I)) as E. rewrite F in E. exact E. }
  unfold feed in F.
  destruct (client_sim h clen Hc _ _ _ _ _ _ _ _ I (or_intror NE) (fun X => match D X with end) F) as [P _].
  destruct o as [| |e|f|]; cbn [client_post flat flat_map] in P; cbn [right_verdict]; rewrite ?RS in P.
  - destruct P as (P & -> & S & _). split; [reflexivity|]. split.
    + rewrite alpha_st in * || idtac. assert (N : needs_byte (a_st (alpha p')) = true) by now rewrite alpha_st.
      destruct (CG _ _ _ P N (flat log)) as (x & L & Fi).
      destruct (IG (List.concat segs ++ x) (flat log ++ L) []) as (w & E & Gw).
      { unfold psem in *. rewrite aexec_app, P. exact Fi. }
      exists x, L. rewrite app_nil_r in E. now rewrite E.
    + intros w y L E Gw. apply (RG _ _ y) in Gw. rewrite <- E in Gw. destruct Gw as (aF & Q & QF).
      rewrite P in Q. injection Q as _ <- _. rewrite alpha_st in QF. rewrite QF in S. discriminate S.
  - destruct P as [P S]. apply IG. exists (alpha p'). now rewrite alpha_st.
  - intros x w y L E Gw. destruct P as (z & e' & R' & P & _). apply (RG _ _ y) in Gw. rewrite <- E in Gw.
    destruct Gw as (aF & Q & _). unfold psem in *. rewrite aexec_app, P in Q. discriminate Q.
  - intros x w y L E Gw. destruct P as (z & P & _). apply (RG _ _ y) in Gw. rewrite <- E in Gw.
    destruct Gw as (aF & Q & _). unfold psem in *. rewrite aexec_app, P in Q. discriminate Q.
  - congruence.
Qed.

Lemma head_verdict h q segs p' log rest o : segs <> [] ->
  hok (strip (List.concat segs)) = true \/ (9 <= List.length (strip (hd [] segs)))%nat ->
  feed h (init_head q) segs = (p', log, rest, o) ->
  right_verdict head_as (List.concat segs) (flat log) rest o.
Proof.
  intros NE Hh F. unfold feed in F. rewrite (client_no_clen h) in F by (reflexivity || discriminate).
  apply (verdict (no_clen h) (fun _ => None) (init_head q) segs p'); try reflexivity; try assumption; try discriminate.
  - constructor; try reflexivity; try discriminate.
    destruct Hh as [Hh|Hh]; [left|right; left; split; [reflexivity|assumption]].
    rewrite <- concat_hd. exact Hh.
  - intros w L r H. eexists. split; [apply (head_run None (fun _ => None)); exact H|reflexivity].
  - intros s L r. apply (head_inv None (fun _ => None)).
  - intros s L a E N. destruct a as [st lo up len]. apply head_can; [|exact N].
    apply (run_keeps Head None (fun _ => None) (fun a => vstate Head (a_st a) = true)) in E; [exact E| | |reflexivity].
    + intros. eapply vstate_byte; eauto; discriminate.
    + intros. eapply vstate_eps; eauto; discriminate.
Qed.

Lemma chunked_verdict h q segs p' log rest o : segs <> [] ->
  feed h (init_chunked q) segs = (p', log, rest, o) ->
  right_verdict chunked_as (List.concat segs) (flat log) rest o.
Proof.
  intros NE F. unfold feed in F. rewrite (client_no_clen h) in F by (reflexivity || discriminate).
  apply (verdict (no_clen h) (fun _ => None) (init_chunked q) segs p'); try reflexivity; try assumption; try discriminate.
  - constructor; try reflexivity; try discriminate. left; reflexivity.
  - intros w L r H. eexists. split; [apply (chunked_run (fun _ => None) _ _ H [])|reflexivity].
  - intros s L r X. destruct (chunked_inv (fun _ => None) L r _ _ [] (le_n _) X) as (w & e & W & E & ->). eauto.
  - intros s L a E N.
    assert (K : vstate Chunked (a_st a) = true /\ a_lo a = 0 /\ a_up a = 0).
    { apply (run_keeps Chunked None (fun _ => None) (fun a => vstate Chunked (a_st a) = true /\ a_lo a = 0 /\ a_up a = 0)) in E;
        [exact E| | |now repeat split].
      - intros a0 b ev a' [V _] R. split; [|now split]. eapply vstate_byte; eauto; discriminate.
      - intros a0 l ev a' [V [Z1 Z2]] R. split; [eapply vstate_eps; eauto; discriminate|].
        destruct a0 as [s0 lo up len]. destruct s0; try discriminate V; try discriminate R; cbn [aeps a_st] in R;
          injection R as <- <-; now split. }
    destruct a as [st lo up len]. destruct K as (V & Z1 & Z2). cbn [a_lo a_up a_st] in *. subst lo up. now apply chunk_can.
Qed.

Lemma multipart_verdict h clen q bd segs p' log rest o : segs <> [] ->
  (forall l, h_clen h l = clen (flat l)) ->
  ~ In 13 bd -> N.of_nat (List.length bd) <= 2 ^ 14 ->
  feed h (set_boundary (init_multipart q) bd) segs = (p', log, rest, o) ->
  right_verdict (multipart_as bd clen) (List.concat segs) (flat log) rest o.
Proof.
  intros NE Hc C Len F.
  apply (verdict h clen (set_boundary (init_multipart q) bd) segs p'); try reflexivity; try assumption; try discriminate.
  - constructor; try reflexivity; try discriminate; [left; reflexivity|]. intros _. now split.
  - intros w L r H. apply (multipart_run clen bd C _ _ _ H).
  - intros s L r X. now apply (multipart_inv clen bd L r).
  - intros s L a E N. apply part_can; [|exact N].
    apply (run_keeps Multipart (Some bd) clen (minv bd)) in E; [exact E| | |now split].
    + intros. eapply minv_byte; eauto.
    + intros. eapply minv_eps; eauto.
Qed.

(* URL-encoded bodies: every state takes the byte 'a'. *)
Lemma url_a a : url_state (a_st a) = true -> exists ev a', abyte_raw None a 97 = AGo ev a' /\ url_state (a_st a') = true.
Proof.
  destruct a as [s lo up len]. cbn [a_st]. intros S. destruct s; try discriminate S; cbn; eexists _, _; split; reflexivity.
Qed.

Lemma url_more clen : forall n a l, url_state (a_st a) = true ->
  exists L a', aexec UrlEncoded None clen a l (repeat 97 n) = ADone (l ++ L) a' [] /\ url_state (a_st a') = true.
Proof.
  induction n as [|n IH]; intros a l S; cbn [repeat].
  - exists [], a. rewrite aexec_nil by (destruct (a_st a); try discriminate S; reflexivity). now rewrite app_nil_r.
  - destruct (url_a a S) as (ev & a' & R & S').
    rewrite aexec_byte by (destruct (a_st a); try discriminate S; reflexivity). unfold abyte. rewrite R.
    destruct (IH (nrm UrlEncoded a') (l ++ ev)) as (L & a2 & E & S2); [exact S'|].
    exists (ev ++ L), a2. rewrite E, app_assoc. now split.
Qed.

Lemma url_verdict h q n segs p' log rest o : segs <> [] ->
  feed h (set_length (init_url_encoded q) n) segs = (p', log, rest, o) ->
  right_verdict (url_body n) (List.concat segs) (flat log) rest o.
Proof.
  intros NE F. pose proof F as F0.
  assert (EN : o <> OFuel).
  { pose proof (feed_ends h (set_length (init_url_encoded q) n) segs eq_refl) as E. rewrite F in E. exact E. }
  unfold feed in F. rewrite (client_no_clen h) in F by (reflexivity || discriminate).
  assert (I : rinv2 (set_length (init_url_encoded q) n) (hd [] segs) (List.concat (tl segs))).
  { constructor; try reflexivity; try discriminate. left; reflexivity. }
  destruct (client_sim (no_clen h) (fun _ => None) (fun _ => eq_refl) _ _ _ _ _ _ _ _ I (or_intror NE) ltac:(discriminate) F) as [P _].
  set (s := List.concat segs) in *. set (k := N.to_nat n).
  assert (US : rsem (fun _ => None) (set_length (init_url_encoded q) n) [] s =
    match aexec UrlEncoded None (fun _ => None) (A StFirstUrlEncodedName 0 0 0) [] (firstn k s) with
    | ADone l1 a1 rest =>
      match a_st a1 with
      | StFinished => ADone l1 a1 (rest ++ skipn k s)
      | _ => if (k <=? List.length s)%nat
             then ADone (l1 ++ [FEv EBodyFinished]) (A StFinished 0 0 0) (skipn k s)
             else ADone l1 a1 []
      end
    | AFail l1 e rest => AFail l1 e (rest ++ skipn k s)
    | AFlt l1 => AFlt l1
    end) by reflexivity.
  (* a body in the grammar is processed without error *)
  assert (RG : forall w L y x, url_body n w L -> s ++ x = w ++ y ->
     exists l1 a1, aexec UrlEncoded None (fun _ => None) (A StFirstUrlEncodedName 0 0 0) [] (firstn k s) = ADone l1 a1 []).
  { intros w L y x (Lw & e & Pe & _) E.
    assert (Ek : k = List.length w) by (unfold k; lia).
    assert (W : w = firstn k (s ++ x)).
    { rewrite E, Ek, firstn_app, firstn_all, Nat.sub_diag, firstn_O. now rewrite app_nil_r. }
    destruct (pairs_run (fun _ => None) w e Pe []) as (a & R & _).
    rewrite W, firstn_app, aexec_app in R.
    destruct (aexec UrlEncoded None (fun _ => None) (A StFirstUrlEncodedName 0 0 0) [] (firstn k s)) as [l1 a1 r1| |] eqn:X; try discriminate R.
    destruct (url_lasts _ _ (A StFirstUrlEncodedName 0 0 0) _ _ _ _ eq_refl X) as [-> _]. eauto. }
  destruct o as [| |e|f|]; cbn [client_post flat flat_map] in P; cbn [right_verdict]; rewrite ?US in P.
  - destruct P as (P & -> & Q & _). split; [reflexivity|].
    destruct (aexec UrlEncoded None (fun _ => None) (A StFirstUrlEncodedName 0 0 0) [] (firstn k s)) as [l1 a1 r1| |] eqn:X; try discriminate P.
    destruct (url_lasts _ _ (A StFirstUrlEncodedName 0 0 0) _ _ _ _ eq_refl X) as [-> S].
    assert (P' : (if (k <=? List.length s)%nat
             then ADone (l1 ++ [FEv EBodyFinished]) (A StFinished 0 0 0) (skipn k s)
             else ADone l1 a1 []) = ADone (flat log) (alpha p') []).
    { destruct (a_st a1); try discriminate S; exact P. }
    clear P. destruct (Nat.leb_spec k (List.length s)) as [Le|Lt].
    { exfalso. injection P' as _ Y _. rewrite <- (alpha_st p') in Q. rewrite <- Y in Q. discriminate Q. }
    injection P' as Y1 Y2. subst l1. rewrite firstn_all2 in X by lia. split.
    + destruct (url_more (fun _ => None) (k - List.length s) a1 (flat log) S) as (L & a2 & R & _).
      exists (repeat 97 (k - List.length s)), (L ++ [FEv EBodyFinished]).
      split; [rewrite app_length, repeat_length; unfold k; unfold k in Lt; lia|].
      destruct (pairs_inv (fun _ => None) (flat log ++ L) _ (s ++ repeat 97 (k - List.length s)) [] (le_n _)) as (e & Pe & E).
      { exists a2. rewrite aexec_app, X. exact R. }
      exists e. split; [exact Pe|]. now rewrite app_assoc, E.
    + intros w y L -> (Lw & _). rewrite app_length in Lt. unfold k in Lt. lia.
  - destruct (url_exact h q n segs rest (flat log) NE) as [UE _].
    destruct UE as (w & e & E & Lw & Pe & EL); [eauto|]. exists w. split; [exact E|]. split; [exact Lw|eauto].
  - intros x w y L E B. destruct P as (z & e' & R' & P & _). destruct (RG _ _ _ _ B E) as (l1 & a1 & X). rewrite X in P.
    destruct (a_st a1); try discriminate P; destruct (k <=? List.length s)%nat; discriminate P.
  - intros x w y L E B. destruct P as (z & P & _). destruct (RG _ _ _ _ B E) as (l1 & a1 & X). rewrite X in P.
    destruct (a_st a1); try discriminate P; destruct (k <=? List.length s)%nat; discriminate P.
  - congruence.
Qed.
