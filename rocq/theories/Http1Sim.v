(* Simulation: the HTTP/1 state functions (slices, marks, collection loops,
   literal comparisons, replays) agree with the byte-at-a-time automaton of
   Http1Sem.v. *)

From Coq Require Import NArith List Bool Arith String Lia.
From Verif Require Import Bytes ByteStream Http1Model Http1Base Http1Wp Http1Term Http1Spec Http1Sem.
Import ListNotations.
Local Open Scope N_scope.

Arguments aexec : simpl never.

(* ------------------------------------------------------------------ *)
(* Invariant                                                            *)
(* ------------------------------------------------------------------ *)

(* States entered with bytes collected but not reported yet, and the callback
   that will report them. *)
Definition pkind (s : pstate) : option dkind :=
  match s with
  | StRequestMethod => Some KMethod
  | StRequestUrl2 => Some KUrl
  | StHeaderValue | StHeaderQuotedValue | StHeaderEscapedValue => Some KHeaderValue
  | _ => None
  end.

(* Observations still to be made of the bytes collected so far. *)
Definition pend (s : pstate) (sl : list byte) : list fevent :=
  match pkind s with Some k => map (FByte k) sl | None => [] end.

(* States that occur for each parser type. *)
Definition vstate (t : ptype) (s : pstate) : bool :=
  match s with
  | StDead | StFinished => true
  | StHeaderCr1 | StMultipartBoundaryLf => false
  | StInitialLf => match t with Head | Multipart => true | _ => false end
  | StHeaderLf1 => match t with UrlEncoded => false | _ => true end
  | StCheckHeaderName | StFirstHeaderName | StUpperHeaderName
  | StLowerHeaderName | StStripHeaderValue | StHeaderValue | StHeaderQuotedValue
  | StHeaderEscapedValue | StHeaderCr2 | StHeaderLf2 | StHeaderEnd =>
      match t with UrlEncoded => false | _ => true end
  | StStripDetect | StDetect1 | StDetect2 | StDetect3 | StDetect4 | StDetect5
  | StRequestMethod | StRequestUrl1 | StRequestUrl2
  | StRequestHttp1 | StRequestHttp2 | StRequestHttp3 | StRequestHttp4 | StRequestHttp5
  | StRequestVersionMajor1 | StRequestVersionMajor2 | StRequestVersionMajor3
  | StRequestVersionPeriod | StRequestVersionMinor1 | StRequestVersionMinor2
  | StRequestVersionMinor3 | StRequestVersionCr
  | StResponseVersionMajor1 | StResponseVersionMajor2 | StResponseVersionMajor3
  | StResponseVersionPeriod | StResponseVersionMinor1 | StResponseVersionMinor2
  | StResponseVersionMinor3 | StResponseVersionSpace
  | StResponseStatusCode1 | StResponseStatusCode2 | StResponseStatusCode3
  | StResponseStatusCodeSpace | StResponseStatus1 | StResponseStatus2 | StInitialEnd =>
      match t with Head => true | _ => false end
  | StChunkLength1 | StChunkLength2 | StChunkLength3 | StChunkLength4 | StChunkLength5
  | StChunkLength6 | StChunkLength7 | StChunkLength8 | StChunkLengthCr
  | StStripChunkExtensionName | StUpperChunkExtensionName | StLowerChunkExtensionName
  | StStripChunkExtensionValue | StChunkExtensionValue | StChunkExtensionQuotedValue
  | StChunkExtensionEscapedValue | StChunkExtensionFinished | StChunkExtensionsFinished
  | StChunkLengthLf | StChunkData | StChunkDataCr | StChunkDataLf =>
      match t with Chunked => true | _ => false end
  | StMultipartHyphen1 | StMultipartHyphen2 | StMultipartBoundary | StMultipartDetectData
  | StMultipartDataByByte | StMultipartDataByLength | StMultipartDataByLengthCr
  | StMultipartDataByLengthLf | StMultipartDataByByteLf | StMultipartBoundaryCr
  | StMultipartEnd => match t with Multipart => true | _ => false end
  | StFirstUrlEncodedName | StUrlEncodedName | StUrlEncodedNameHex1 | StUrlEncodedNameHex2
  | StUrlEncodedNamePlus | StUrlEncodedValue | StUrlEncodedValueHex1 | StUrlEncodedValueHex2
  | StUrlEncodedValuePlus => match t with UrlEncoded => true | _ => false end
  | StBodyFinished => match t with Head => false | _ => true end
  end.

(* The stream does not start with a method beginning with H, or the whole of
   the literals tested by detect1 is visible. *)
Definition dok1 (r : list byte) : Prop :=
  match r with
  | 72 :: r' => (8 <= List.length r')%nat \/ cmpb r' (bs "TTP/") = true
  | _ => True
  end.

(* Condition on the stream in the detection states. *)
Definition dok (s : pstate) (r : list byte) : Prop :=
  match s with
  | StStripDetect => dok1 (strip r)
  | StDetect1 => r <> [] /\ dok1 r
  | StDetect2 => cmpb r (bs "TTP/") = true
  | StDetect3 => cmpb r (bs "TP/") = true
  | StDetect4 => cmpb r (bs "P/") = true
  | StDetect5 => cmpb r (bs "/") = true
  | _ => True
  end.

(* The multipart boundary, if any, is shorter than 2^14 bytes and free of CR. *)
Definition bdok (bd : option (list byte)) : Prop :=
  match bd with
  | Some bd => ~ In 13 bd /\ N.of_nat (List.length bd) <= 2 ^ 14
  | None => True
  end.

(* Invariant of the loop. *)
Record inv (m : mach) : Prop := {
  inv_state : vstate (parser_type (mp m)) (state_fn (mp m)) = true;
  inv_slice : pkind (state_fn (mp m)) = None -> cslice (mc m) = [];
  inv_dok : dok (state_fn (mp m)) (crest (mc m));
  inv_bdok : parser_type (mp m) = Multipart -> bdok (boundary (mp m))
}.

(* ------------------------------------------------------------------ *)
(* Properties of the automaton                                          *)
(* ------------------------------------------------------------------ *)

(* States that need a byte to go on. *)
Definition needs_byte (s : pstate) : bool :=
  match s with
  | StInitialEnd | StHeaderEnd | StChunkExtensionsFinished | StMultipartDetectData
  | StUrlEncodedNamePlus | StUrlEncodedValuePlus | StBodyFinished | StFinished | StDead => false
  | _ => true
  end.

Section Automaton.
  Variables (t : ptype) (bd : option (list byte)) (clen : list fevent -> option N).

  Lemma aexec_nil a l : needs_byte (a_st a) = true -> aexec t bd clen a l [] = ADone l a [].
  Proof. destruct a as [s lo up len]; destruct s; intros H; try discriminate H; reflexivity. Qed.

  Lemma aexec_byte a l b r :
    needs_byte (a_st a) = true ->
    aexec t bd clen a l (b :: r) =
    match abyte t bd a b with
    | AGo ev a' => aexec t bd clen a' (l ++ ev) r
    | AError ev e => AFail (l ++ ev) e r
    | APanic => AFlt l
    end.
  Proof. destruct a as [s lo up len]; destruct s; intros H; try discriminate H; reflexivity. Qed.

  Lemma aexec_close a l a' l' s :
    aclose 3 t clen l a = aclose 3 t clen l' a' ->
    aexec t bd clen a l s = aexec t bd clen a' l' s.
  Proof. intros H. destruct s; unfold aexec; fold aexec; now rewrite H. Qed.

  (* Steps without input may be taken at any time. *)
  Lemma aexec_eps a l s ev a' :
    aeps t clen l a = Some (ev, a') ->
    aexec t bd clen a l s = aexec t bd clen a' (l ++ ev) s.
  Proof.
    intros H. apply aexec_close. destruct a as [st lo up len].
    destruct st; try discriminate H; injection H as <- <-;
      destruct t; try reflexivity;
      cbn [aclose aeps nrm Http1Sem.st a_st a_lo a_up a_len];
      match goal with |- context [clen ?x] => destruct (clen x) end; reflexivity.
  Qed.

  (* A state looping on the bytes x. *)
  Lemma aexec_loop a (f : byte -> list fevent) x : forall l r,
    needs_byte (a_st a) = true ->
    Forall (fun b => abyte t bd a b = AGo (f b) a) x ->
    aexec t bd clen a l (x ++ r) = aexec t bd clen a (l ++ flat_map f x) r.
  Proof.
    induction x as [|b x IH]; intros l r H F; cbn [app flat_map].
    - now rewrite app_nil_r.
    - inversion F as [|? ? F1 F2]; subst.
      rewrite aexec_byte, F1, IH by assumption. now rewrite app_assoc.
  Qed.

  Lemma aexec_loop_data a k x l r :
    needs_byte (a_st a) = true ->
    Forall (fun b => abyte t bd a b = AGo [FByte k b] a) x ->
    aexec t bd clen a l (x ++ r) = aexec t bd clen a (l ++ map (FByte k) x) r.
  Proof.
    intros H F. rewrite (aexec_loop a (fun b => [FByte k b])) by assumption.
    replace (flat_map (fun b => [FByte k b]) x) with (map (FByte k) x); [reflexivity|].
    clear F. induction x as [|b x IH]; cbn; [reflexivity|]. now rewrite IH.
  Qed.

  Lemma aexec_loop_skip a x l r :
    needs_byte (a_st a) = true ->
    Forall (fun b => abyte t bd a b = AGo [] a) x ->
    aexec t bd clen a l (x ++ r) = aexec t bd clen a l r.
  Proof.
    intros H F. rewrite (aexec_loop a (fun _ => [])) by assumption.
    replace (flat_map (fun _ => []) x) with (@nil fevent); [now rewrite app_nil_r|].
    clear F. induction x; auto.
  Qed.

  Lemma aexec_loop_data_nil a k x l :
    needs_byte (a_st a) = true ->
    Forall (fun b => abyte t bd a b = AGo [FByte k b] a) x ->
    aexec t bd clen a l x = aexec t bd clen a (l ++ map (FByte k) x) [].
  Proof. intros H F. rewrite <- (app_nil_r x) at 1. now apply aexec_loop_data. Qed.

  Lemma aexec_loop_skip_nil a x l :
    needs_byte (a_st a) = true ->
    Forall (fun b => abyte t bd a b = AGo [] a) x ->
    aexec t bd clen a l x = aexec t bd clen a l [].
  Proof. intros H F. rewrite <- (app_nil_r x) at 1. now apply aexec_loop_skip. Qed.
End Automaton.

Lemma flat_app l1 l2 : flat (l1 ++ l2) = (flat l1 ++ flat l2)%list.
Proof. unfold flat. apply flat_map_app. Qed.

Lemma flat_data k d : flat [EData k d] = map (FByte k) d.
Proof. unfold flat. cbn. apply app_nil_r. Qed.

(* ------------------------------------------------------------------ *)
(* Tables                                                               *)
(* ------------------------------------------------------------------ *)

Lemma stop_table_false tbl stop b :
  stop_table tbl stop b = Some false -> tbl b = Some true /\ stop b = false.
Proof.
  unfold stop_table. destruct (tbl b) as [[]|]; cbn; try discriminate.
  intros [= ->]. auto.
Qed.

Lemma stop_table_true tbl stop b :
  stop_table tbl stop b = Some true ->
  tbl b = Some false \/ (tbl b = Some true /\ stop b = true).
Proof.
  unfold stop_table. destruct (tbl b) as [[]|]; cbn; try discriminate; auto.
  intros [= ->]. auto.
Qed.

Lemma stop_table_none tbl stop b : stop_table tbl stop b = None -> tbl b = None.
Proof. unfold stop_table. now destruct (tbl b). Qed.

(* ------------------------------------------------------------------ *)
(* One step                                                             *)
(* ------------------------------------------------------------------ *)

(* The bytes c left unread by the parser at the error e, given those left
   unread by the automaton: a boundary (of n bytes) is compared as a whole, so
   that a mismatch is noticed at the first of the bytes compared. *)
Definition blen (p : parser) : nat :=
  match boundary p with Some bd => List.length bd | None => 0 end.
Definition placed (e : perror) (n : nat) (c r : list byte) : Prop :=
  match e with
  | ErMultipartBoundary _ =>
      (List.length r <= List.length c <= List.length r + pred n)%nat
  | _ => List.length r = List.length c
  end.

Section Step.
  Variables (h : handler) (clen : list fevent -> option N).
  Hypothesis Hclen : forall l, h_clen h l = clen (flat l).

  (* Meaning of a parser with history l and stream r. *)
  Definition psem (p : parser) (l : list fevent) (r : list byte) : aout :=
    aexec (parser_type p) (boundary p) clen (alpha p) l r.

  (* Meaning of a machine state. *)
  Definition sem (m : mach) : aout :=
    psem (mp m) (flat (ml m) ++ pend (state_fn (mp m)) (cslice (mc m))) (crest (mc m)).

  Definition sim_post (m m' : mach) (o : outcome) : Prop :=
    match o with
    | Continue => sem m = sem m' /\ inv m'
    | Exit (SFinished _) => m' = m /\ state_fn (mp m) = StFinished
    | Exit _ =>
        sem m = psem (mp m') (flat (ml m')) (crest (mc m')) /\
        vstate (parser_type (mp m')) (state_fn (mp m')) = true /\
        dok (state_fn (mp m')) (crest (mc m')) /\
        boundary (mp m') = boundary (mp m) /\ parser_type (mp m') = parser_type (mp m) /\
        state_fn (mp m') <> StDetect1
    | Fail e => exists L e' R, sem m = AFail L e' R /\ same_kind e e' /\ nearly (flat (ml m')) L /\ placed e (blen (mp m)) (crest (mc m')) R
    | Faulted f => exists L, sem m = AFlt L /\ nearly (flat (ml m')) L
    end.
End Step.

(* ------------------------------------------------------------------ *)
(* Rewriting                                                            *)
(* ------------------------------------------------------------------ *)

Lemma pt_ss p s : parser_type (p_set_state p s) = parser_type p. Proof. reflexivity. Qed.
Lemma pt_sl p v : parser_type (set_lower14 p v) = parser_type p. Proof. reflexivity. Qed.
Lemma pt_su p v : parser_type (set_upper14 p v) = parser_type p. Proof. reflexivity. Qed.
Lemma pt_wl p v : parser_type (with_length p v) = parser_type p. Proof. reflexivity. Qed.
Lemma bd_ss p s : boundary (p_set_state p s) = boundary p. Proof. reflexivity. Qed.
Lemma bd_sl p v : boundary (set_lower14 p v) = boundary p. Proof. reflexivity. Qed.
Lemma bd_su p v : boundary (set_upper14 p v) = boundary p. Proof. reflexivity. Qed.
Lemma bd_wl p v : boundary (with_length p v) = boundary p. Proof. reflexivity. Qed.
Lemma le_ss p s : plength (p_set_state p s) = plength p. Proof. reflexivity. Qed.
Lemma le_sl p v : plength (set_lower14 p v) = plength p. Proof. reflexivity. Qed.
Lemma le_su p v : plength (set_upper14 p v) = plength p. Proof. reflexivity. Qed.
Lemma le_wl p v : plength (with_length p v) = v. Proof. reflexivity. Qed.
Lemma fn_ss p s : state_fn (p_set_state p s) = s. Proof. reflexivity. Qed.
Lemma fn_sl p v : state_fn (set_lower14 p v) = state_fn p. Proof. reflexivity. Qed.
Lemma fn_su p v : state_fn (set_upper14 p v) = state_fn p. Proof. reflexivity. Qed.
Lemma fn_wl p v : state_fn (with_length p v) = state_fn p. Proof. reflexivity. Qed.
Lemma gl_ss p s : get_lower14 (p_set_state p s) = get_lower14 p. Proof. reflexivity. Qed.
Lemma gl_wl p v : get_lower14 (with_length p v) = get_lower14 p. Proof. reflexivity. Qed.
Lemma gu_ss p s : get_upper14 (p_set_state p s) = get_upper14 p. Proof. reflexivity. Qed.
Lemma gu_wl p v : get_upper14 (with_length p v) = get_upper14 p. Proof. reflexivity. Qed.

#[export] Hint Rewrite pt_ss pt_sl pt_su pt_wl bd_ss bd_sl bd_su bd_wl le_ss le_sl le_su le_wl
     fn_ss fn_sl fn_su fn_wl gl_ss gl_wl gu_ss gu_wl
     get_set_lower get_set_upper get_lower_set_upper : pdb.

Ltac cbn_a :=
  cbn [nrm uses_lo uses_up uses_hex a_st a_lo a_up a_len st st_lo st_up st_len needs_byte
       pend pkind map app vstate dok with_ev].

Ltac unfold_a :=
  cbv beta delta [abyte abyte_raw];
  cbn [nrm uses_lo uses_up uses_hex a_st a_lo a_up a_len st st_lo st_up st_len needs_byte];
  cbv beta delta [
   by_table a_method a_detect1 a_detect a_expect a_url1 a_url2 a_major1 a_major23 a_minor1
   a_version_end a_minor23 a_code a_status2 a_lower_name a_first_name a_check_name
   a_value a_quoted a_escaped a_chunk_cr a_chunk_n a_ext_finished a_ext_name a_ext_value
   a_ext_quoted a_ext_escaped a_by_length a_by_byte a_hyphen a_boundary_cr
   a_url_name a_url_value a_hex1 a_hex2 a_strip];
  cbn [nrm uses_lo uses_up uses_hex a_st a_lo a_up a_len st st_lo st_up st_len needs_byte with_ev];
  cbv beta.

(* Use known results of tests; decide the others. *)
Ltac tests :=
  repeat (match goal with
  | H : ?c = true |- context [if ?c then _ else _] => rewrite H
  | H : ?c = false |- context [if ?c then _ else _] => rewrite H
  | H : ?c = Some _ |- context [match ?c with _ => _ end] => rewrite H
  | H : ?c = None |- context [match ?c with _ => _ end] => rewrite H
  | |- context [if ?c then _ else _] =>
      match type of c with bool =>
      lazymatch c with context [if _ then _ else _] => fail | _ => destruct c eqn:? end end
  end; cbn [nrm uses_lo uses_up uses_hex a_st a_lo a_up a_len st st_lo st_up st_len needs_byte with_ev]).

(* ------------------------------------------------------------------ *)
(* Tactics for the leaves of a step                                     *)
(* ------------------------------------------------------------------ *)

(* Facts about bytes as linear arithmetic. *)
Ltac bytesP :=
  repeat match goal with
  | H : Some _ = Some _ |- _ => injection H as H
  | H : negb _ = true |- _ => apply negb_true_iff in H
  | H : negb _ = false |- _ => apply negb_false_iff in H
  | H : (_ || _) = false |- _ => apply orb_false_iff in H; destruct H
  | H : (_ || _) = true |- _ => apply orb_true_iff in H
  | H : (_ && _) = true |- _ => apply andb_true_iff in H; destruct H
  | H : (_ && _) = false |- _ => apply andb_false_iff in H
  | H : stop_table _ _ _ = Some false |- _ => apply stop_table_false in H; destruct H
  | H : stop_table _ _ _ = Some true |- _ => apply stop_table_true in H
  | H : stop_table _ _ _ = None |- _ => apply stop_table_none in H
  | H : (_ =? _) = true |- _ => apply N.eqb_eq in H
  | H : (_ =? _) = false |- _ => apply N.eqb_neq in H
  | H : (_ <=? _) = true |- _ => apply N.leb_le in H
  | H : (_ <=? _) = false |- _ => apply N.leb_gt in H
  | H : (_ <? _) = true |- _ => apply N.ltb_lt in H
  | H : (_ <? _) = false |- _ => apply N.ltb_ge in H
  end.

Ltac classes :=
  unfold is_upper, is_visible_7bit, is_digit, is_hex, is_status_byte, is_escapable in *.

(* Contradiction between tests on bytes. *)
Ltac byte_contra :=
  solve [exfalso; classes; bytesP; try congruence; try lia;
         repeat (match goal with H : _ \/ _ |- _ => destruct H end; bytesP; try congruence; try lia)].

Ltac psimp :=
  repeat match goal with
  | |- context [parser_type (p_set_state ?p ?s)] =>
      change (parser_type (p_set_state p s)) with (parser_type p)
  | |- context [boundary (p_set_state ?p ?s)] =>
      change (boundary (p_set_state p s)) with (boundary p)
  | |- context [plength (p_set_state ?p ?s)] =>
      change (plength (p_set_state p s)) with (plength p)
  | |- context [state_fn (p_set_state ?p ?s)] => change (state_fn (p_set_state p s)) with s
  | |- context [get_lower14 (p_set_state ?p ?s)] =>
      change (get_lower14 (p_set_state p s)) with (get_lower14 p)
  | |- context [get_upper14 (p_set_state ?p ?s)] =>
      change (get_upper14 (p_set_state p s)) with (get_upper14 p)
  end;
  match goal with
  | |- context [set_lower14 _ _] => autorewrite with pdb
  | |- context [set_upper14 _ _] => autorewrite with pdb
  | |- context [with_length _ _] => autorewrite with pdb
  | _ => idtac
  end.

Ltac loop_cond :=
  eapply Forall_impl; [|eassumption];
  let b := fresh "b" in let Hb := fresh "Hb" in
  intros b Hb; cbn beta in Hb; unfold_a; bytesP; tests; try reflexivity; try byte_contra.

(* Consume collected bytes on the left. *)
Ltac loops :=
  match goal with
  | H : Forall _ ?x |- context [aexec _ _ _ _ _ (?x ++ _)] =>
      first [ rewrite (aexec_loop_skip _ _ _ _ x); [|reflexivity|solve [loop_cond]]
            | erewrite (aexec_loop_data _ _ _ _ _ x); [|reflexivity|solve [loop_cond]] ]
  | H : Forall _ ?x |- context [aexec _ _ _ _ _ ?x] =>
      first [ rewrite (aexec_loop_skip_nil _ _ _ _ x); [|reflexivity|solve [loop_cond]]
            | erewrite (aexec_loop_data_nil _ _ _ _ _ x); [|reflexivity|solve [loop_cond]] ]
  end.

(* Consume one byte. *)
Ltac bytes1 := rewrite aexec_byte by reflexivity; unfold_a; tests.

Lemma nearly_refl l : nearly l l.
Proof. exists KMethod, []. now rewrite app_nil_r. Qed.

Lemma nearly_map l k d : nearly l (l ++ map (FByte k) d).
Proof. now exists k, d. Qed.

Ltac nearly_tac :=
  rewrite ?app_nil_r;
  first [ apply nearly_refl
        | apply nearly_map
        | rewrite <- ?app_assoc, <- ?map_app; apply nearly_map
        | match goal with |- nearly _ (_ ++ _ ++ [FByte ?k ?b]) =>
            change [FByte k b] with (map (FByte k) [b]) end;
          rewrite <- ?map_app; apply nearly_map ].

Ltac close_leaf :=
  rewrite ?flat_app, ?flat_data, ?map_app, <- ?app_assoc; cbn [map app flat flat_map flat1];
  rewrite ?app_nil_r;
  first [ reflexivity | congruence
        | eexists; eexists; eexists; split; [reflexivity|split; [reflexivity|split; [solve [nearly_tac]|first [reflexivity|cbn [placed List.length]; lia]]]]
        | eexists; split; [reflexivity|solve [nearly_tac]]
        | byte_contra ].

(* ------------------------------------------------------------------ *)
(* Proof of the simulation for one state                                *)
(* ------------------------------------------------------------------ *)

Ltac sim_start :=
  let m := fresh "m" in let p := fresh "p" in let cb := fresh "cb" in let mk := fresh "mk" in
  let sl := fresh "sl" in let r := fresh "r" in let l := fresh "l" in
  let Efn := fresh "Efn" in let I := fresh "I" in let V := fresh "V" in let S := fresh "S" in
  let D := fresh "D" in let B := fresh "B" in let Et := fresh "Et" in
  intros m Efn I; destruct m as [p [cb mk sl r] l]; destruct I as [V S D B];
  cbn [mp mc ml cslice crest] in *; unfold run_fn; cbn [mp]; rewrite Efn in V, S, D |- *;
  cbn [pkind] in S; try (specialize (S eq_refl); subst sl);
  destruct (parser_type p) eqn:Et; try discriminate V; clear V;
  unfold_state; lits; wp_all.
Ltac stopP :=
  repeat match goal with
  | H : stop_table _ _ _ = Some true |- _ =>
     let H' := fresh in apply stop_table_true in H; destruct H as [H|[H H']]; cbv beta in *
  | H : stop_table _ _ _ = None |- _ => apply stop_table_none in H
  | H : Some _ = Some _ |- _ => injection H as H
  | H : false = true |- _ => discriminate H
  end.
Ltac rw_p :=
  repeat match goal with
  | H : state_fn ?p = _ |- context [state_fn ?p] => rewrite H
  | H : parser_type ?p = _ |- context [parser_type ?p] => rewrite H
  end.
Ltac sim_leaf :=
  unfold sim_post, sem, psem, alpha; cbn [mp mc ml crest cslice];
  psimp; rw_p; cbn_a; rewrite ?app_nil_r;
  repeat match goal with |- _ /\ _ => split end; try reflexivity; try discriminate; try exact Logic.I;
  try (match goal with |- inv _ => constructor; cbn [mp mc ml cslice crest];
       psimp; cbn_a; rw_p; try reflexivity; try discriminate; try assumption; try exact Logic.I end);
  rewrite ?flat_app, ?flat_data.
Ltac sim_auto :=
  sim_start; stopP; sim_leaf;
  first [ solve [close_leaf]
        | solve [loops; close_leaf]
        | solve [bytes1; close_leaf]
        | solve [loops; bytes1; close_leaf]
        | solve [bytes1; bytes1; close_leaf]
        | solve [loops; bytes1; bytes1; close_leaf]
        | solve [erewrite aexec_eps by reflexivity; close_leaf]
        | idtac ].
