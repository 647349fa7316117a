(* Symbolic execution of the state functions: one rule per macro of the model,
   and tactics that run a state function down to its exits. *)

From Coq Require Import NArith List Bool Arith String Lia.
From Verif Require Import Bytes ByteStream Http1Model Http1Base.
Import ListNotations.
Local Open Scope N_scope.

(* Q holds of the machine state and the outcome r. *)
Definition wp (r : mach * outcome) (Q : mach -> outcome -> Prop) : Prop := Q (fst r) (snd r).

Lemma wp_pair m o (Q : mach -> outcome -> Prop) : Q m o -> wp (m, o) Q.
Proof. exact (fun H => H). Qed.

Lemma wp_run r Q : wp r Q -> forall m o, r = (m, o) -> Q m o.
Proof. intros H m o ->. exact H. Qed.

Lemma wp_exit_callback p c l (Q : mach -> outcome -> Prop) :
  Q (Mach p c l) (Exit (SCallback (cindex c))) -> wp (exit_callback (Mach p c l)) Q.
Proof. exact (fun H => H). Qed.

Lemma wp_exit_eos p c l (Q : mach -> outcome -> Prop) :
  Q (Mach p c l) (Exit (SEos (cindex c))) -> wp (exit_eos (Mach p c l)) Q.
Proof. exact (fun H => H). Qed.

Lemma wp_exit_finished p c l (Q : mach -> outcome -> Prop) :
  Q (Mach p c l) (Exit (SFinished (cindex c))) -> wp (exit_finished (Mach p c l)) Q.
Proof. exact (fun H => H). Qed.

Lemma wp_fail m e (Q : mach -> outcome -> Prop) : Q m (Fail e) -> wp (fail m e) Q.
Proof. exact (fun H => H). Qed.

Lemma wp_faulted m f (Q : mach -> outcome -> Prop) : Q m (Faulted f) -> wp (faulted m f) Q.
Proof. exact (fun H => H). Qed.

Lemma wp_remark p cb mk sl r l (Q : mach -> outcome -> Prop) :
  Q (Mach p (Ctx cb (mk + List.length sl) [] r) l) Continue ->
  wp (remark (Mach p (Ctx cb mk sl r) l)) Q.
Proof. exact (fun H => H). Qed.

Lemma wp_transition p cb mk sl r l s (Q : mach -> outcome -> Prop) :
  Q (Mach (p_set_state p s) (Ctx cb (mk + List.length sl) [] r) l) Continue ->
  wp (transition (Mach p (Ctx cb mk sl r) l) s) Q.
Proof. exact (fun H => H). Qed.

Lemma wp_transition_no_remark p c l s (Q : mach -> outcome -> Prop) :
  Q (Mach (p_set_state p s) c l) Continue ->
  wp (transition_no_remark (Mach p c l) s) Q.
Proof. exact (fun H => H). Qed.

Lemma wp_callback_data h p c l e exec (Q : mach -> outcome -> Prop) :
  (h_ret h l e = true -> wp (exec (Mach p c (l ++ [e]))) Q) ->
  (h_ret h l e = false -> Q (Mach p c (l ++ [e])) (Exit (SCallback (cindex c)))) ->
  wp (callback_data h (Mach p c l) e exec) Q.
Proof.
  intros H1 H2. unfold callback_data, call. cbn [mp mc ml].
  destruct (h_ret h l e); [now apply H1|now apply H2].
Qed.

Lemma wp_callback_transition_data h p cb mk sl r l e s (Q : mach -> outcome -> Prop) :
  (h_ret h l e = true ->
   Q (Mach (p_set_state p s) (Ctx cb (mk + List.length sl) [] r) (l ++ [e])) Continue) ->
  (h_ret h l e = false ->
   Q (Mach (p_set_state p s) (Ctx cb mk sl r) (l ++ [e])) (Exit (SCallback (mk + List.length sl)))) ->
  wp (callback_transition_data h (Mach p (Ctx cb mk sl r) l) e s) Q.
Proof. intros H1 H2. now apply wp_callback_data. Qed.

Lemma wp_callback_slice h p cb mk sl r l k exec (Q : mach -> outcome -> Prop) :
  (sl = [] -> wp (exec (Mach p (Ctx cb mk [] r) l)) Q) ->
  (sl <> [] -> h_ret h l (EData k sl) = true ->
   wp (exec (Mach p (Ctx cb mk sl r) (l ++ [EData k sl]))) Q) ->
  (sl <> [] -> h_ret h l (EData k sl) = false ->
   Q (Mach p (Ctx cb mk sl r) (l ++ [EData k sl])) (Exit (SCallback (mk + List.length sl)))) ->
  wp (callback_slice h (Mach p (Ctx cb mk sl r) l) k exec) Q.
Proof.
  intros H1 H2 H3. unfold callback_slice, bs_slice_length, bs_slice. cbn [mc cslice].
  destruct sl as [|x sl]; cbn [List.length]; [now apply H1|].
  cbn -[callback_data]. apply wp_callback_data; intros E.
  - apply H2; [discriminate|assumption].
  - apply H3; [discriminate|assumption].
Qed.

Lemma wp_callback_transition_slice h p cb mk sl r l k s (Q : mach -> outcome -> Prop) :
  (sl = [] -> Q (Mach (p_set_state p s) (Ctx cb mk [] r) l) Continue) ->
  (sl <> [] -> h_ret h l (EData k sl) = true ->
   Q (Mach (p_set_state p s) (Ctx cb (mk + List.length sl) [] r) (l ++ [EData k sl])) Continue) ->
  (sl <> [] -> h_ret h l (EData k sl) = false ->
   Q (Mach (p_set_state p s) (Ctx cb mk sl r) (l ++ [EData k sl]))
     (Exit (SCallback (mk + List.length sl)))) ->
  wp (callback_transition_slice h (Mach p (Ctx cb mk sl r) l) k s) Q.
Proof.
  intros H1 H2 H3. unfold callback_transition_slice.
  apply wp_callback_slice; intros.
  - apply wp_remark. cbn [List.length]. rewrite Nat.add_0_r. now apply H1.
  - apply wp_remark. now apply H2.
  - now apply H3.
Qed.

Lemma wp_callback_eos h p cb mk sl r l k (Q : mach -> outcome -> Prop) :
  (sl = [] -> Q (Mach p (Ctx cb mk [] r) l) (Exit (SEos mk))) ->
  (sl <> [] -> h_ret h l (EData k sl) = true ->
   Q (Mach p (Ctx cb mk sl r) (l ++ [EData k sl])) (Exit (SEos (mk + List.length sl)))) ->
  (sl <> [] -> h_ret h l (EData k sl) = false ->
   Q (Mach p (Ctx cb mk sl r) (l ++ [EData k sl])) (Exit (SCallback (mk + List.length sl)))) ->
  wp (callback_eos h (Mach p (Ctx cb mk sl r) l) k) Q.
Proof.
  intros H1 H2 H3. unfold callback_eos.
  apply wp_callback_slice; intros.
  - apply wp_exit_eos. unfold cindex. cbn [cmark cslice List.length]. rewrite Nat.add_0_r.
    now apply H1.
  - now apply wp_exit_eos, H2.
  - now apply H3.
Qed.

Lemma wp_callback_ignore_transition h p cb mk sl b r l k s (Q : mach -> outcome -> Prop) :
  (sl = [] -> Q (Mach (p_set_state p s) (Ctx cb (mk + 1) [] r) l) Continue) ->
  (sl <> [] -> h_ret h l (EData k sl) = true ->
   Q (Mach (p_set_state p s) (Ctx cb (mk + List.length (sl ++ [b])) [] r) (l ++ [EData k sl]))
     Continue) ->
  (sl <> [] -> h_ret h l (EData k sl) = false ->
   Q (Mach (p_set_state p s) (Ctx cb mk (sl ++ [b]) r) (l ++ [EData k sl]))
     (Exit (SCallback (mk + List.length (sl ++ [b]))))) ->
  wp (callback_ignore_transition h (Mach p (Ctx cb mk (sl ++ [b]) r) l) k s) Q.
Proof.
  intros H1 H2 H3. unfold callback_ignore_transition, bs_slice_length, bs_slice_ignore.
  unfold set_state, with_p. cbn [mc mp ml cslice].
  rewrite removelast_snoc.
  destruct sl as [|x sl].
  - now apply H1.
  - replace (1 <? List.length ((x :: sl) ++ [b]))%nat with true.
    + apply wp_callback_data; intros E.
      * apply wp_remark, H2; [discriminate|assumption].
      * apply H3; [discriminate|assumption].
    + symmetry. apply Nat.ltb_lt. rewrite app_length. cbn [List.length]. lia.
Qed.

Lemma wp_next_or_eos p cb mk sl r l k (Q : mach -> outcome -> Prop) :
  (r = [] -> Q (Mach p (Ctx cb mk sl []) l) (Exit (SEos (mk + List.length sl)))) ->
  (forall b r', r = b :: r' -> wp (k (Mach p (Ctx b mk (sl ++ [b]) r') l) b) Q) ->
  wp (next_or_eos (Mach p (Ctx cb mk sl r) l) k) Q.
Proof.
  intros H1 H2. unfold next_or_eos, bs_next. cbn [mc crest cmark cslice].
  destruct r as [|b r].
  - now apply H1.
  - now apply (H2 b r).
Qed.

Lemma wp_next_unchecked p cb mk sl r l k (Q : mach -> outcome -> Prop) :
  (r = [] -> Q (Mach p (Ctx cb mk sl []) l) (Faulted FIndexPanic)) ->
  (forall b r', r = b :: r' -> wp (k (Mach p (Ctx b mk (sl ++ [b]) r') l) b) Q) ->
  wp (next_unchecked (Mach p (Ctx cb mk sl r) l) k) Q.
Proof.
  intros H1 H2. unfold next_unchecked, bs_next. cbn [mc crest cmark cslice].
  destruct r as [|b r].
  - now apply H1.
  - now apply (H2 b r).
Qed.

Lemma wp_header_escaped h p cb mk sl r l (Q : mach -> outcome -> Prop) :
  (r = [] -> wp (callback_eos h (Mach p (Ctx cb mk sl []) l) KHeaderValue) Q) ->
  (forall b r', r = b :: r' ->
   wp (if is_escapable b
       then callback_transition_slice h (Mach p (Ctx b mk (sl ++ [b]) r') l) KHeaderValue
                                      StHeaderQuotedValue
       else fail (Mach p (Ctx b mk (sl ++ [b]) r') l) (ErHeaderValue b)) Q) ->
  wp (header_escaped_value h (Mach p (Ctx cb mk sl r) l)) Q.
Proof.
  intros H1 H2. unfold header_escaped_value, bs_next. cbn [mc crest cmark cslice].
  destruct r as [|b r].
  - now apply H1.
  - now apply (H2 b r).
Qed.

Lemma wp_collecting stop p cb mk sl r l k_eos k (Q : mach -> outcome -> Prop) :
  (forall cb', Forall (fun b => stop b = Some false) r ->
     wp (k_eos (Mach p (Ctx cb' mk (sl ++ r) []) l)) Q) ->
  (forall x b y, r = (x ++ b :: y)%list -> Forall (fun b => stop b = Some false) x ->
     stop b = Some true ->
     wp (k (Mach p (Ctx b mk ((sl ++ x) ++ [b]) y) l) b) Q) ->
  (forall x b y, r = (x ++ b :: y)%list -> Forall (fun b => stop b = Some false) x ->
     stop b = None ->
     Q (Mach p (Ctx b mk ((sl ++ x) ++ [b]) y) l) (Faulted FIndexPanic)) ->
  wp (collecting (bs_collect stop (Ctx cb mk sl r)) (Mach p (Ctx cb mk sl r) l) k_eos k) Q.
Proof.
  intros H1 H2 H3. pose proof (bs_collect_spec stop (Ctx cb mk sl r)) as H.
  cbn [cmark cslice crest] in H.
  destruct (bs_collect stop (Ctx cb mk sl r)); cbn [collect_post] in H; unfold collecting.
  - destruct H as (x & b & y & E & F & S & ->). now apply H2.
  - destruct H as (cb' & -> & F). now apply H1.
  - destruct H as (x & b & y & E & F & S & ->). now apply H3.
Qed.

Lemma wp_if_starts_with p cb mk sl r l lit yes no (Q : mach -> outcome -> Prop) :
  ((List.length r < List.length lit)%nat ->
     Q (Mach p (Ctx cb mk sl r) l) (Faulted FOutOfBounds)) ->
  (forall r', r = (lit ++ r')%list -> wp yes Q) ->
  ((forall r', r <> (lit ++ r')%list) -> (List.length lit <= List.length r)%nat -> wp no Q) ->
  wp (if_starts_with (Mach p (Ctx cb mk sl r) l) lit yes no) Q.
Proof.
  intros H1 H2 H3. unfold if_starts_with. cbn [mc].
  destruct (bs_starts_with (Ctx cb mk sl r) lit) as [[]|] eqn:E.
  - apply starts_with_true in E. cbn [crest] in E. eapply H2, E.
  - apply H3.
    + exact (starts_with_false _ _ E).
    + unfold bs_starts_with in E. cbn [crest] in E.
      destruct (_ <=? _)%nat eqn:L; [|discriminate]. now apply Nat.leb_le.
  - apply H1. unfold bs_starts_with in E. cbn [crest] in E.
    destruct (_ <=? _)%nat eqn:L; [discriminate|]. now apply Nat.leb_gt.
Qed.

Lemma wp_if (c : bool) a b (Q : mach -> outcome -> Prop) :
  (c = true -> wp a Q) -> (c = false -> wp b Q) -> wp (if c then a else b) Q.
Proof. destruct c; auto. Qed.

(* ------------------------------------------------------------------ *)
(* Known header names                                                   *)
(* ------------------------------------------------------------------ *)

(* All entries compared by first_header_name. *)
Definition all_names : list (list byte * list byte * nat) :=
  names_A ++ names_U ++ names_C ++ names_L ++ names_X ++
  [ (bs "Host:", bs "host", 5%nat);
    (bs "Pragma:", bs "pragma", 7%nat);
    (bs "Set-Cookie:", bs "set-cookie", 11%nat);
    (bs "Transfer-Encoding:", bs "transfer-encoding", 18%nat);
    (bs "WWW-Authenticate:", bs "www-authenticate", 17%nat) ].

(* ASCII lower case *)
Definition lower (b : byte) : byte := if is_upper b then b + 32 else b.

(* Check of one entry: the literal is a visible token, differing from the name
   in case only, followed by a colon; the length is that of the literal. *)
Definition name_entry_ok (e : list byte * list byte * nat) : bool :=
  let '(lit, name, len) := e in
  (len =? List.length lit)%nat && (len <=? 24)%nat && negb (len <=? 1)%nat &&
  beq lit (removelast lit ++ [58]) &&
  forallb (fun b => match is_token b with Some true => true | _ => false end) (removelast lit) &&
  is_visible_7bit (hd 0 lit) &&
  beq (map lower (removelast lit)) name.

Lemma all_names_ok : forallb name_entry_ok all_names = true.
Proof. vm_compute. reflexivity. Qed.

Lemma all_names_spec lit name len :
  In (lit, name, len) all_names ->
  exists b x, lit = ((b :: x) ++ [58])%list /\ len = List.length lit /\
    Forall (fun b => is_token b = Some true) (b :: x) /\ is_visible_7bit b = true /\
    map lower (b :: x) = name /\ (len <= 24)%nat.
Proof.
  intros H. pose proof all_names_ok as A.
  rewrite forallb_forall in A. apply A in H. clear A.
  unfold name_entry_ok in H. rewrite !andb_true_iff in H.
  destruct H as ((((((H1 & H2) & H3) & H4) & H5) & H6) & H7).
  apply Nat.eqb_eq in H1. apply Nat.leb_le in H2. apply beq_eq in H4. apply beq_eq in H7.
  apply negb_true_iff, Nat.leb_gt in H3.
  destruct (removelast lit) as [|b x] eqn:E.
  - exfalso. rewrite H1, H4 in H3. cbn in H3. lia.
  - exists b, x. repeat split; auto.
    + apply Forall_forall. intros y Hy. rewrite forallb_forall in H5. apply H5 in Hy.
      destruct (is_token y) as [[]|]; congruence.
    + rewrite H4 in H6. exact H6.
Qed.

Lemma wp_name_chain h p cb mk sl r l tbl k (Q : mach -> outcome -> Prop) :
  (24 <= List.length r)%nat ->
  (forall e, In e tbl -> In e all_names) ->
  (forall lit name len r', In (lit, name, len) all_names -> r = (lit ++ r')%list ->
     wp (header_name_found h (Mach p (Ctx cb mk sl r) l) name len) Q) ->
  wp k Q ->
  wp (name_chain h (Mach p (Ctx cb mk sl r) l) tbl k) Q.
Proof.
  intros L. induction tbl as [|[[lit name] len] tbl IH]; intros T H K; cbn [name_chain].
  - exact K.
  - assert (In (lit, name, len) all_names) as I by (apply T; now left).
    apply wp_if_starts_with.
    + intros L'. destruct (all_names_spec _ _ _ I) as (b & x & _ & E & _ & _ & _ & E').
      lia.
    + intros r' E. eapply H; eassumption.
    + intros _ _. apply IH; auto. intros e He. apply T. now right.
Qed.

Lemma wp_first_header_name h p cb mk sl r l (Q : mach -> outcome -> Prop) :
  (forall lit name len r', In (lit, name, len) all_names -> r = (lit ++ r')%list ->
     wp (header_name_found h (Mach p (Ctx cb mk sl r) l) name len) Q) ->
  wp (first_header_name_slow (Mach p (Ctx cb mk sl r) l)) Q ->
  wp (first_header_name h (Mach p (Ctx cb mk sl r) l)) Q.
Proof.
  intros H K. unfold first_header_name. unfold bs_has_bytes. cbn [mc crest cbyte]. cbv zeta.
  destruct (24 <=? List.length r)%nat eqn:L; [|exact K].
  apply Nat.leb_le in L.
  assert (forall tbl, (forall e, In e tbl -> In e all_names) ->
          wp (name_chain h (Mach p (Ctx cb mk sl r) l) tbl
             (first_header_name_slow (Mach p (Ctx cb mk sl r) l))) Q) as C.
  { intros tbl T. now apply wp_name_chain. }
  assert (forall lit name len no, In (lit, name, len) all_names -> wp no Q ->
          wp (if_starts_with (Mach p (Ctx cb mk sl r) l) lit
                (header_name_found h (Mach p (Ctx cb mk sl r) l) name len) no) Q) as D.
  { intros lit name len no I N. apply wp_if_starts_with.
    - intros L'. destruct (all_names_spec _ _ _ I) as (b & x & _ & E & _ & _ & _ & E'). lia.
    - intros r' E. eapply H; eassumption.
    - auto. }
  assert (forall tbl, incl tbl all_names -> forall e, In e tbl -> In e all_names) as T by auto.
  unfold all_names in *.
  repeat match goal with
  | |- wp (if _ then _ else _) _ => apply wp_if; intros _
  | |- wp (if_starts_with _ _ _ _) _ => apply D
  | |- wp (name_chain _ _ _ _) _ => apply C, T
  | |- wp (first_header_name_slow _) _ => exact K
  | |- In _ _ => rewrite !in_app_iff; cbn [In]; tauto
  | |- incl _ _ => intros ? ?; rewrite !in_app_iff; tauto
  end.
Qed.

(* ------------------------------------------------------------------ *)
(* Tactics                                                              *)
(* ------------------------------------------------------------------ *)

(* Unfold the definitions a state function is written with. *)
Ltac unfold_state :=
  cbv beta delta [
    strip_detect detect1 detect1_method detect1_version detect1_slow detect1_methods
    detect2 detect3 detect4 detect5 detect_n
    request_method request_url1 request_url2 request_http1 request_http1_slow
    request_http1_version request_http2 request_http3 request_http4 request_http5 expect_byte
    version_major1 version_major23 version_minor1 version_minor23 version_end
    request_version_major1 request_version_major2 request_version_major3 request_version_period
    request_version_minor1 request_version_minor2 request_version_minor3 request_version_cr
    response_version_major1 response_version_major2 response_version_major3
    response_version_period response_version_minor1 response_version_minor2
    response_version_minor3 response_version_space
    response_status_code1 response_status_code2 response_status_code3
    response_status_code_space response_status1 response_status2
    initial_end initial_lf check_header_name header_name_found
    first_header_name_slow upper_header_name lower_header_name
    strip_header_value header_value header_quoted_value header_cr1 header_lf1
    header_cr2 header_cr2_slow header_lf2 header_end
    chunk_length1 chunk_length_n chunk_length2 chunk_length3 chunk_length4 chunk_length5
    chunk_length6 chunk_length7 chunk_length8 chunk_length_cr chunk_length_lf
    strip_chunk_extension_name lower_chunk_extension_name upper_chunk_extension_name
    strip_chunk_extension_value chunk_extension_value chunk_extension_quoted_value
    chunk_extension_escaped_value chunk_extension_finished chunk_extensions_finished
    data_by_length chunk_data chunk_data_cr chunk_data_lf
    multipart_hyphen multipart_hyphen1 multipart_hyphen2 multipart_boundary
    multipart_boundary_cr multipart_boundary_lf multipart_detect_data
    multipart_data_by_length multipart_data_by_length_cr multipart_data_by_length_lf
    multipart_data_by_byte multipart_data_by_byte_lf multipart_end
    first_url_encoded_name url_encoded_name url_hex1 url_hex2
    url_encoded_name_hex1 url_encoded_name_hex2 url_encoded_name_plus
    url_encoded_value url_encoded_value_hex1 url_encoded_value_hex2 url_encoded_value_plus
    dead body_finished finished
    collect_field collect_quoted_field collect_tokens collect_visible_7bit consume_linear_space
    replay jump with_c with_p bs_available bs_has_bytes
  ]; cbn [mp mc ml crest cbyte cmark cslice]; cbv beta zeta.

Ltac unfold_state_in H :=
  cbv beta delta [
    replay jump with_c with_p bs_available bs_has_bytes
  ] in H; cbn [mp mc ml crest cbyte cmark cslice] in H; cbv beta zeta in H.

(* Simplify replays and jumps of explicit contexts. *)
Ltac norm_ctx := rewrite ?replay_snoc; unfold bs_jump; cbn [crest cbyte cmark cslice mp mc ml].

(* Evaluate string literals. *)
Ltac lits :=
  repeat match goal with
  | |- context [bs ?s] => let v := eval vm_compute in (bs s) in change (bs s) with v
  end; cbn [app].

(* Use an equation between a stream and a literal followed by something. *)
Ltac eqlit E :=
  cbn [app] in E;
  first [ discriminate E
        | match type of E with ?x = _ => is_var x; subst x end
        | match type of E with (_ ++ _)%list = [] => apply app_eq_nil in E; destruct E; subst; try discriminate end
        | match type of E with _ :: _ = _ => injection E; clear E; intros; subst; try discriminate end
        | idtac ].

(* One step of symbolic execution; the head of the goal is wp _ _. *)
Ltac wp_step :=
  match goal with
  | |- wp (if _ then _ else _) _ => apply wp_if; intro
  | |- wp (next_or_eos _ _) _ => apply wp_next_or_eos; [let E := fresh "E" in intros E; eqlit E|let E := fresh "E" in intros ? ? E; eqlit E]
  | |- wp (next_unchecked _ _) _ => apply wp_next_unchecked; [let E := fresh "E" in intros E; eqlit E|let E := fresh "E" in intros ? ? E; eqlit E]
  | |- wp (header_escaped_value _ _) _ => apply wp_header_escaped; [intro; subst|intros ? ? ?; subst]
  | |- wp (collecting _ _ _ _) _ =>
      apply wp_collecting; [intros ? ?|intros ? ? ? ? ? ?; subst|intros ? ? ? ? ? ?; subst]
  | |- wp (if_starts_with _ _ _ _) _ =>
      apply wp_if_starts_with; [intro|let E := fresh "E" in intros ? E; eqlit E|intros ? ?]
  | |- wp (first_header_name _ _) _ => apply wp_first_header_name; [intros ? ? ? ? ? ?|]
  | |- wp (callback_eos _ _ _) _ => apply wp_callback_eos; [let E := fresh "E" in intros E; eqlit E|intros ? ?|intros ? ?]
  | |- wp (callback_ignore_transition _ _ _ _) _ =>
      apply wp_callback_ignore_transition; [let E := fresh "E" in intros E; eqlit E|intros ? ?|intros ? ?]
  | |- wp (callback_transition_slice _ _ _ _) _ =>
      apply wp_callback_transition_slice; [let E := fresh "E" in intros E; eqlit E|intros ? ?|intros ? ?]
  | |- wp (callback_slice _ _ _ _) _ => apply wp_callback_slice; [let E := fresh "E" in intros E; eqlit E|intros ? ?|intros ? ?]
  | |- wp (callback_transition_data _ _ _ _) _ =>
      apply wp_callback_transition_data; [intro|intro]
  | |- wp (callback_data _ _ _ _) _ => apply wp_callback_data; [intro|intro]
  | |- wp (transition_no_remark _ _) _ => apply wp_transition_no_remark
  | |- wp (transition _ _) _ => apply wp_transition
  | |- wp (remark _) _ => apply wp_remark
  | |- wp (exit_callback _) _ => apply wp_exit_callback
  | |- wp (exit_eos _) _ => apply wp_exit_eos
  | |- wp (exit_finished _) _ => apply wp_exit_finished
  | |- wp (fail _ _) _ => apply wp_fail
  | |- wp (faulted _ _) _ => apply wp_faulted
  | |- wp (match ?x with _ => _ end) _ => destruct x eqn:?
  end.

(* Run to the leaves. *)
Ltac wp_all := repeat (wp_step; unfold_state; norm_ctx).
