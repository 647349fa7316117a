(* Pausing changes nothing: proofs.  A parser that goes on with a fresh context
   does what the paused one would have done. *)

From Coq Require Import NArith List Bool Arith String Lia.
From Verif Require Import Bytes ByteStream Http1Model Http1Base Http1Wp Http1Term Http1Spec
  Http1Sem Http1Sim Http1Step Http1Misc Http1Run Http1Client Http1Api.
Import ListNotations.
Local Open Scope N_scope.

(* ------------------------------------------------------------------ *)
(* Contexts may be exchanged                                            *)
(* ------------------------------------------------------------------ *)

(* States in which the field length is not used. *)
Definition free_length (s : pstate) : bool :=
  match s with
  | StFirstUrlEncodedName | StUrlEncodedName | StUrlEncodedNameHex1 | StUrlEncodedNameHex2
  | StUrlEncodedNamePlus | StUrlEncodedValue | StUrlEncodedValueHex1 | StUrlEncodedValueHex2
  | StUrlEncodedValuePlus | StBodyFinished | StFinished | StDead => true
  | _ => false
  end.

(* States that look at the byte fetched last. *)
Definition uses_byte (s : pstate) : bool :=
  match s with StDetect1 | StFirstHeaderName => true | _ => false end.

Definition prel (u : bool) (k : nat) (p1 p2 : parser) : Prop :=
  bit_data p1 = bit_data p2 /\ boundary p1 = boundary p2 /\ parser_type p1 = parser_type p2 /\
  state p1 = state p2 /\ state_fn p1 = state_fn p2 /\
  (if u then free_length (state_fn p2) = true /\ plength p1 = plength p2 - N.of_nat k
   else plength p1 = plength p2).

(* Same but for the position; u: the length counts what is left, too. *)
Definition mrel (u : bool) (k : nat) (m1 m2 : mach) : Prop :=
  prel u k (mp m1) (mp m2) /\ ml m1 = ml m2 /\
  cslice (mc m1) = cslice (mc m2) /\ crest (mc m1) = crest (mc m2) /\
  cmark (mc m2) = (k + cmark (mc m1))%nat /\
  byte_count (mp m1) = byte_count (mp m2) + N.of_nat k.

Definition orel (u : bool) (k : nat) (a b : mach * outcome) : Prop :=
  mrel u k (fst a) (fst b) /\
  match snd a, snd b with
  | Continue, Continue =>
      uses_byte (state_fn (mp (fst b))) = true -> cbyte (mc (fst a)) = cbyte (mc (fst b))
  | Exit (SCallback n), Exit (SCallback n') => n' = (k + n)%nat
  | Exit (SEos n), Exit (SEos n') => n' = (k + n)%nat
  | Exit (SFinished n), Exit (SFinished n') => n' = (k + n)%nat
  | Fail e, Fail e' => e = e'
  | Faulted f, Faulted f' => f = f'
  | _, _ => False
  end.

Definition crel (k : nat) (a b : collected) : Prop :=
  match a, b with
  | CStop c, CStop c' | CPanic c, CPanic c' =>
      cbyte c = cbyte c' /\ cmark c' = (k + cmark c)%nat /\ cslice c = cslice c' /\ crest c = crest c'
  | CEos c, CEos c' => cmark c' = (k + cmark c)%nat /\ cslice c = cslice c' /\ crest c = crest c'
  | _, _ => False
  end.

Lemma collect_rel k stop : forall r cb cb' mk sl,
  crel k (collect_loop stop cb mk sl r) (collect_loop stop cb' (k + mk) sl r).
Proof.
  induction r as [|b r IH]; intros cb cb' mk sl; cbn [collect_loop].
  - cbn. auto.
  - destruct (stop b) as [[|]|]; cbn; auto.
Qed.

Lemma orel_collecting u k stop p1 p2 cb1 cb2 mk sl r l e1 e2 k1 k2 :
  (forall c1 c2 x, orel u k (e1 (Mach p1 (Ctx c1 mk x []) l)) (e2 (Mach p2 (Ctx c2 (k + mk) x []) l))) ->
  (forall b x r', orel u k (k1 (Mach p1 (Ctx b mk (x ++ [b]) r') l) b) (k2 (Mach p2 (Ctx b (k + mk) (x ++ [b]) r') l) b)) ->
  (forall b x r', orel u k (faulted (Mach p1 (Ctx b mk x r') l) FIndexPanic) (faulted (Mach p2 (Ctx b (k + mk) x r') l) FIndexPanic)) ->
  orel u k (collecting (bs_collect stop (Ctx cb1 mk sl r)) (Mach p1 (Ctx cb1 mk sl r) l) e1 k1)
         (collecting (bs_collect stop (Ctx cb2 (k + mk) sl r)) (Mach p2 (Ctx cb2 (k + mk) sl r) l) e2 k2).
Proof.
  intros He Hk Hf. unfold bs_collect. cbn [cbyte cmark cslice crest].
  revert cb1 cb2 sl. induction r as [|b r IH]; intros cb1 cb2 sl; cbn [collect_loop].
  - apply He.
  - destruct (stop b) as [[|]|].
    + apply Hk.
    + exact (IH b b (sl ++ [b])).
    + apply Hf.
Qed.

Lemma orel_next u k p1 p2 cb1 cb2 mk sl r l k1 k2 :
  orel u k (exit_eos (Mach p1 (Ctx cb1 mk sl []) l)) (exit_eos (Mach p2 (Ctx cb2 (k + mk) sl []) l)) ->
  (forall b r', orel u k (k1 (Mach p1 (Ctx b mk (sl ++ [b]) r') l) b) (k2 (Mach p2 (Ctx b (k + mk) (sl ++ [b]) r') l) b)) ->
  orel u k (next_or_eos (Mach p1 (Ctx cb1 mk sl r) l) k1) (next_or_eos (Mach p2 (Ctx cb2 (k + mk) sl r) l) k2).
Proof.
  intros H1 H2. unfold next_or_eos, bs_next. cbn [mc crest cmark cslice]. destruct r as [|b r]; [exact H1|].
  exact (H2 b r).
Qed.

Lemma orel_if u k (c : bool) a a' b b' :
  orel u k a a' -> orel u k b b' -> orel u k (if c then a else b) (if c then a' else b').
Proof. now destruct c. Qed.

Lemma orel_starts u k p1 p2 cb1 cb2 mk sl r l lit y1 y2 n1 n2 :
  orel u k (faulted (Mach p1 (Ctx cb1 mk sl r) l) FOutOfBounds)
         (faulted (Mach p2 (Ctx cb2 (k + mk) sl r) l) FOutOfBounds) ->
  orel u k y1 y2 -> orel u k n1 n2 ->
  orel u k (if_starts_with (Mach p1 (Ctx cb1 mk sl r) l) lit y1 n1)
         (if_starts_with (Mach p2 (Ctx cb2 (k + mk) sl r) l) lit y2 n2).
Proof.
  intros Hf Hy Hn. unfold if_starts_with, bs_starts_with. cbn [mc crest].
  destruct (_ <=? _)%nat; [|exact Hf]. now destruct (beq _ _).
Qed.

Lemma orel_data u k h p1 p2 cb1 cb2 mk sl r l e x1 x2 :
  orel u k (x1 (Mach p1 (Ctx cb1 mk sl r) (l ++ [e]))) (x2 (Mach p2 (Ctx cb2 (k + mk) sl r) (l ++ [e]))) ->
  orel u k (exit_callback (Mach p1 (Ctx cb1 mk sl r) (l ++ [e])))
         (exit_callback (Mach p2 (Ctx cb2 (k + mk) sl r) (l ++ [e]))) ->
  orel u k (callback_data h (Mach p1 (Ctx cb1 mk sl r) l) e x1)
         (callback_data h (Mach p2 (Ctx cb2 (k + mk) sl r) l) e x2).
Proof. intros H1 H2. unfold callback_data, call. cbn [mp mc ml]. now destruct (h_ret h l e). Qed.

Lemma orel_slice u k h p1 p2 cb1 cb2 mk sl r l kd x1 x2 :
  orel u k (x1 (Mach p1 (Ctx cb1 mk sl r) l)) (x2 (Mach p2 (Ctx cb2 (k + mk) sl r) l)) ->
  orel u k (x1 (Mach p1 (Ctx cb1 mk sl r) (l ++ [EData kd sl])))
         (x2 (Mach p2 (Ctx cb2 (k + mk) sl r) (l ++ [EData kd sl]))) ->
  orel u k (exit_callback (Mach p1 (Ctx cb1 mk sl r) (l ++ [EData kd sl])))
         (exit_callback (Mach p2 (Ctx cb2 (k + mk) sl r) (l ++ [EData kd sl]))) ->
  orel u k (callback_slice h (Mach p1 (Ctx cb1 mk sl r) l) kd x1)
         (callback_slice h (Mach p2 (Ctx cb2 (k + mk) sl r) l) kd x2).
Proof.
  intros H0 H1 H2. unfold callback_slice, bs_slice_length, bs_slice. cbn [mc cslice].
  destruct sl as [|b sl]; cbn [List.length Nat.ltb Nat.leb]; [exact H0|]. now apply orel_data.
Qed.

Lemma orel_unchecked u k p1 p2 cb1 cb2 mk sl r l k1 k2 :
  orel u k (faulted (Mach p1 (Ctx cb1 mk sl []) l) FIndexPanic) (faulted (Mach p2 (Ctx cb2 (k + mk) sl []) l) FIndexPanic) ->
  (forall b r', orel u k (k1 (Mach p1 (Ctx b mk (sl ++ [b]) r') l) b) (k2 (Mach p2 (Ctx b (k + mk) (sl ++ [b]) r') l) b)) ->
  orel u k (next_unchecked (Mach p1 (Ctx cb1 mk sl r) l) k1) (next_unchecked (Mach p2 (Ctx cb2 (k + mk) sl r) l) k2).
Proof.
  intros H1 H2. unfold next_unchecked, bs_next. cbn [mc crest cmark cslice]. destruct r as [|b r]; [exact H1|].
  exact (H2 b r).
Qed.

Lemma orel_chain u k h p1 p2 cb1 cb2 mk sl r l tbl n1 n2 :
  orel u k (faulted (Mach p1 (Ctx cb1 mk sl r) l) FOutOfBounds)
         (faulted (Mach p2 (Ctx cb2 (k + mk) sl r) l) FOutOfBounds) ->
  (forall name len, orel u k (header_name_found h (Mach p1 (Ctx cb1 mk sl r) l) name len)
                           (header_name_found h (Mach p2 (Ctx cb2 (k + mk) sl r) l) name len)) ->
  orel u k n1 n2 ->
  orel u k (name_chain h (Mach p1 (Ctx cb1 mk sl r) l) tbl n1)
         (name_chain h (Mach p2 (Ctx cb2 (k + mk) sl r) l) tbl n2).
Proof.
  intros Hf Hy Hn. induction tbl as [|[[lit name] len] tbl IH]; cbn [name_chain]; [exact Hn|].
  apply orel_starts; [exact Hf|apply Hy|exact IH].
Qed.

Ltac rleaf :=
  unfold orel, mrel, prel, remark, exit_eos, exit_callback, exit_finished, fail, faulted, cindex, with_c, bs_mark;
  cbn [fst snd mp mc ml crest cbyte cmark cslice bit_data boundary byte_count plength parser_type state state_fn
       p_set_state with_length with_bits set_lower14 set_upper14 free_length uses_byte];
  repeat split; try reflexivity; try lia; try discriminate; auto;
  unfold cindex; cbn [cmark cslice]; try lia.

Ltac rflat :=
  unfold_state; norm_ctx;
  unfold transition, transition_no_remark, callback_eos, callback_ignore_transition, callback_transition_slice,
    callback_transition_data, set_state, with_p, with_c, get_lower14, get_upper14, set_lower14, set_upper14, with_bits, with_length,
    p_set_state, push_hex, bs_mark, bs_slice_length, bs_slice_ignore, bs_slice;
  cbn [mp mc ml crest cbyte cmark cslice bit_data boundary byte_count plength parser_type state state_fn]; cbv beta zeta.

Ltac rstep :=
  match goal with
  | |- orel _ _ (if ?c then _ else _) (if ?c then _ else _) => apply orel_if
  | |- orel _ _ (next_or_eos _ _) _ => apply orel_next; [|intros ? ?]
  | |- orel _ _ (collecting _ _ _ _) _ => apply orel_collecting; [intros ? ? ?|intros ? ? ?|intros ? ? ?]
  | |- orel _ _ (if_starts_with _ _ _ _) _ => apply orel_starts
  | |- orel _ _ (callback_data _ _ _ _) _ => apply orel_data
  | |- orel _ _ (next_unchecked _ _) _ => apply orel_unchecked; [|intros ? ?]
  | |- orel _ _ (name_chain _ _ _ _) _ => apply orel_chain; [|intros ? ?|]
  | |- orel _ _ (first_header_name _ _) _ => unfold first_header_name
  | |- orel _ _ (header_escaped_value _ ?m) _ =>
      unfold header_escaped_value, bs_next; cbn [mc crest cmark cslice];
      match goal with r : list byte |- orel _ _ (match match ?r with _ => _ end with _ => _ end) _ => destruct r end
  | |- orel _ _ (callback_slice _ _ _ _) _ => apply orel_slice
  | |- orel _ _ (remark _) _ => rleaf
  | |- orel _ _ (exit_callback _) _ => rleaf
  | |- orel _ _ (exit_eos _) _ => rleaf
  | |- orel _ _ (exit_finished _) _ => rleaf
  | |- orel _ _ (fail _ _) _ => rleaf
  | |- orel _ _ (faulted _ _) _ => rleaf
  | |- orel _ _ (Mach _ _ _, _) _ => rleaf
  | |- orel _ _ (match ?x with _ => _ end) (match ?x with _ => _ end) => destruct x
  end.

Lemma run_fn_rel u k h m1 m2 : mrel u k m1 m2 ->
  (uses_byte (state_fn (mp m2)) = true -> cbyte (mc m1) = cbyte (mc m2)) ->
  orel u k (run_fn h m1) (run_fn h m2).
Proof.
  destruct m1 as [[bd bo bc ln ty st fn] [cb mk sl r] l].
  destruct m2 as [[bd' bo' bc' ln' ty' st' fn'] [cb' mk' sl' r'] l'].
  unfold mrel, prel.
  cbn [mp mc ml crest cbyte cmark cslice bit_data boundary byte_count plength parser_type state state_fn].
  intros ((-> & -> & -> & -> & -> & L) & -> & -> & -> & -> & ->) Cb. unfold run_fn. cbn [mp state_fn].
  destruct fn'; cbn [free_length uses_byte] in L, Cb;
    (destruct u; [destruct L as [L0 L]; try discriminate L0; clear L0; subst ln|subst ln]);
    try (specialize (Cb eq_refl); subst cb).
  all: repeat (rflat; rstep).
  destruct ty'; discriminate.
Qed.

(* ------------------------------------------------------------------ *)
(* What a handler that pauses does to one step                          *)
(* ------------------------------------------------------------------ *)

(* The same handler, never pausing. *)
Definition patient (h : handler) : handler := Handler (fun _ _ => true) (h_clen h).

Definition paused (a b : mach * outcome) : Prop :=
  a = b \/
  exists m, a = exit_callback m /\
    uses_byte (state_fn (mp m)) = false /\
    (b = remark m \/ b = exit_eos m /\ crest (mc m) = []).

Lemma paused_if (c : bool) a a' b b' : paused a a' -> paused b b' -> paused (if c then a else b) (if c then a' else b').
Proof. now destruct c. Qed.

Lemma paused_next m k1 k2 : (forall m' b, mp m' = mp m -> paused (k1 m' b) (k2 m' b)) ->
  paused (next_or_eos m k1) (next_or_eos m k2).
Proof.
  intros H. unfold next_or_eos. destruct (bs_next (mc m)); [now apply H|now left].
Qed.

Lemma paused_unchecked m k1 k2 : (forall m' b, mp m' = mp m -> paused (k1 m' b) (k2 m' b)) ->
  paused (next_unchecked m k1) (next_unchecked m k2).
Proof.
  intros H. unfold next_unchecked. destruct (bs_next (mc m)); [now apply H|now left].
Qed.

Lemma collect_eos stop : forall r cb mk sl c, collect_loop stop cb mk sl r = CEos c -> crest c = [].
Proof.
  induction r as [|b r IH]; intros cb mk sl c E; cbn [collect_loop] in E.
  - injection E as <-. reflexivity.
  - destruct (stop b) as [[|]|]; try discriminate E. exact (IH _ _ _ _ E).
Qed.

Lemma paused_collecting stop m e1 e2 k1 k2 :
  (forall m', mp m' = mp m -> crest (mc m') = [] -> paused (e1 m') (e2 m')) ->
  (forall m' b, mp m' = mp m -> paused (k1 m' b) (k2 m' b)) ->
  paused (collecting (bs_collect stop (mc m)) m e1 k1) (collecting (bs_collect stop (mc m)) m e2 k2).
Proof.
  intros He Hk. unfold collecting. destruct (bs_collect stop (mc m)) eqn:C; [now apply Hk| |now left].
  apply He; [reflexivity|]. exact (collect_eos _ _ _ _ _ _ C).
Qed.

Lemma paused_starts m lit y1 y2 n1 n2 : paused y1 y2 -> paused n1 n2 ->
  paused (if_starts_with m lit y1 n1) (if_starts_with m lit y2 n2).
Proof. intros Hy Hn. unfold if_starts_with. destruct (bs_starts_with _ _) as [[|]|]; auto. now left. Qed.

Lemma paused_remark h m e : uses_byte (state_fn (mp m)) = false ->
  paused (callback_data h m e remark) (callback_data (patient h) m e remark).
Proof.
  intros U. unfold callback_data, call. cbn [h_ret patient]. destruct (h_ret h (ml m) e); [now left|].
  right. eexists. split; [reflexivity|]. split; [exact U|]. left. reflexivity.
Qed.

Lemma paused_eos h m k : uses_byte (state_fn (mp m)) = false -> crest (mc m) = [] -> paused (callback_eos h m k) (callback_eos (patient h) m k).
Proof.
  intros U R. unfold callback_eos, callback_slice, callback_data, call. cbn [h_ret patient].
  destruct (_ <? _)%nat; [|now left]. destruct (h_ret h (ml m) _); [now left|].
  right. eexists. split; [reflexivity|]. split; [exact U|]. right. split; [reflexivity|exact R].
Qed.

Lemma paused_slice h m k s : uses_byte s = false ->
  paused (callback_transition_slice h m k s) (callback_transition_slice (patient h) m k s).
Proof.
  intros U. unfold callback_transition_slice, callback_slice. destruct (_ <? _)%nat; [|now left]. now apply paused_remark.
Qed.

Lemma paused_ignore h m k s : uses_byte s = false ->
  paused (callback_ignore_transition h m k s) (callback_ignore_transition (patient h) m k s).
Proof.
  intros U. unfold callback_ignore_transition. cbv zeta. destruct (_ <? _)%nat; [|now left]. now apply paused_remark.
Qed.

Lemma paused_data h m e s : uses_byte s = false ->
  paused (callback_transition_data h m e s) (callback_transition_data (patient h) m e s).
Proof. intros U. now apply paused_remark. Qed.

Lemma paused_chain h m tbl n1 n2 : paused n1 n2 ->
  paused (name_chain h m tbl n1) (name_chain (patient h) m tbl n2).
Proof.
  intros Hn. induction tbl as [|[[lit name] len] tbl IH]; cbn [name_chain]; [exact Hn|].
  apply paused_starts; [now apply paused_data|exact IH].
Qed.

Ltac pflat :=
  cbv beta delta [
    strip_detect detect1 detect1_method detect1_version detect1_slow detect1_methods
    detect2 detect3 detect4 detect5 detect_n
    request_method request_url1 request_url2 request_http1 request_http1_slow
    request_http1_version request_http2 request_http3 request_http4 request_http5 expect_byte
    version_major1 version_major23 version_minor1 version_minor23 version_end
    request_version_major1 request_version_major2 request_version_major3 request_version_period
    request_version_minor1 request_version_minor2 request_version_minor3 request_version_cr
    response_version_major1 response_version_major2 response_version_major3
    response_version_period response_version_minor1 response_version_minor2
    response_version_minor3 response_version_space
    response_status_code1 response_status_code2 response_status_code3
    response_status_code_space response_status1 response_status2
    initial_end initial_lf check_header_name header_name_found
    first_header_name first_header_name_slow upper_header_name lower_header_name
    strip_header_value header_value header_quoted_value header_cr1 header_lf1
    header_cr2 header_cr2_slow header_lf2 header_end
    chunk_length1 chunk_length_n chunk_length2 chunk_length3 chunk_length4 chunk_length5
    chunk_length6 chunk_length7 chunk_length8 chunk_length_cr chunk_length_lf
    strip_chunk_extension_name lower_chunk_extension_name upper_chunk_extension_name
    strip_chunk_extension_value chunk_extension_value chunk_extension_quoted_value
    chunk_extension_escaped_value chunk_extension_finished chunk_extensions_finished
    data_by_length chunk_data chunk_data_cr chunk_data_lf
    multipart_hyphen multipart_hyphen1 multipart_hyphen2 multipart_boundary
    multipart_boundary_cr multipart_boundary_lf multipart_detect_data
    multipart_data_by_length multipart_data_by_length_cr multipart_data_by_length_lf
    multipart_data_by_byte multipart_data_by_byte_lf multipart_end
    first_url_encoded_name url_encoded_name url_hex1 url_hex2
    url_encoded_name_hex1 url_encoded_name_hex2 url_encoded_name_plus
    url_encoded_value url_encoded_value_hex1 url_encoded_value_hex2 url_encoded_value_plus
    dead body_finished finished
    collect_field collect_quoted_field collect_tokens collect_visible_7bit consume_linear_space ];
  cbv zeta.

Ltac pknown :=
  repeat match goal with H : mp ?x = _ |- context [mp ?x] => rewrite H end;
  match goal with H : state_fn _ = _ |- _ => rewrite H; reflexivity end.

Ltac pstep :=
  match goal with
  | |- paused ?a ?a => left; reflexivity
  | |- paused (callback_transition_data _ _ _ (match ?x with _ => _ end)) _ => destruct x
  | |- paused (callback_transition_data _ _ _ _) _ => apply paused_data; reflexivity
  | |- paused (callback_transition_slice _ _ _ _) _ => apply paused_slice; reflexivity
  | |- paused (callback_ignore_transition _ _ _ _) _ => apply paused_ignore; reflexivity
  | |- paused (callback_eos _ _ _) _ => apply paused_eos; [pknown|assumption]
  | |- paused (name_chain _ _ _ _) _ => apply paused_chain
  | |- paused (next_or_eos _ _) _ => apply paused_next; intros ? ? ?
  | |- paused (next_unchecked _ _) _ => apply paused_unchecked; intros ? ? ?
  | |- paused (collecting _ _ _ _) _ => apply paused_collecting; [intros ? ? ?|intros ? ? ?]
  | |- paused (if_starts_with _ _ _ _) _ => apply paused_starts
  | |- paused (if ?c then _ else _) (if ?c then _ else _) => apply paused_if
  | |- paused (match ?x with _ => _ end) (match ?x with _ => _ end) => destruct x
  end.

Lemma run_fn_paused h m : paused (run_fn h m) (run_fn (patient h) m).
Proof.
  unfold run_fn. destruct (state_fn (mp m)) eqn:Efn.
  all: repeat (pflat; pstep).
  - unfold header_escaped_value. destruct (bs_next (mc m)) eqn:E; [apply paused_if; [now apply paused_slice|now left]|].
    apply paused_eos; [pknown|]. unfold bs_next in E. now destruct (crest (mc m)).
  - left. reflexivity.
Qed.
