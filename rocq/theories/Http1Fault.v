(* Absence of panics and out-of-range reads; position of errors: proofs. *)

From Coq Require Import NArith List Bool Arith String Lia ZifyBool.
From Verif Require Import Bytes ByteStream Http1Model Http1Base Http1Wp Http1Term Http1Spec
     Http1Sem Http1Sim Http1Misc Http1Data Http1Run Http1Client Http1Use.
Import ListNotations.
Local Open Scope N_scope.

(* ------------------------------------------------------------------ *)
(* Position of errors                                                   *)
(* ------------------------------------------------------------------ *)

(* A failing step has fetched the byte it reports last. *)
Definition err_post (m m' : mach) (o : outcome) : Prop :=
  forall e, o = Fail e ->
    match error_byte e with
    | Some b => exists x, crest (mc m) = x ++ b :: crest (mc m')
    | None => state_fn (mp m) = StDead /\ m' = m
    end.

Lemma run_fn_err h m : wp (run_fn h m) (err_post m).
Proof.
  destruct m as [p [cb mk sl r] l]. unfold run_fn. cbn [mp].
  destruct (state_fn p) eqn:Efn; unfold_state; lits.
  all: wp_all.
  all: intros e X; try discriminate X; injection X as <-; cbn [error_byte mp mc crest].
  all: try (now split).
  all: try (now exists []).
  all: try (eexists; reflexivity).
  all: try match goal with H : ?r = _ |- exists x, ?r = _ => exists []; exact H end.
  - now exists [b].
  - now exists [b; b0].
Qed.

(* No step continues in the dead state. *)
Lemma run_fn_alive h m : wp (run_fn h m) (fun m' o => o = Continue -> state_fn (mp m') <> StDead).
Proof.
  destruct m as [p [cb mk sl r] l]. unfold run_fn. cbn [mp].
  destruct (state_fn p) eqn:Efn; unfold_state; lits.
  all: wp_all.
  all: intros X; try discriminate X; clear X; cbn [mp state_fn p_set_state with_length set_upper14 set_lower14 with_bits].
  all: try discriminate.
  all: try (rewrite Efn; discriminate).
  all: repeat match goal with |- context [if ?c then _ else _] => destruct c end; try discriminate.
  all: match goal with |- context [parser_type ?q] => destruct (parser_type q) end; discriminate.
Qed.

(* ------------------------------------------------------------------ *)
(* Absence of faults                                                    *)
(* ------------------------------------------------------------------ *)

(* A boundary is set and the comparison position lies within it. *)
Definition bd_ok (p : parser) : Prop :=
  parser_type p = Multipart ->
  exists bd, boundary p = Some bd /\ (N.to_nat (get_upper14 p) <= List.length bd)%nat.

Definition safe_post (m m' : mach) (o : outcome) : Prop :=
  (bd_ok (mp m) -> bd_ok (mp m')) /\
  match o with
  | Faulted _ => False
  | Continue => state_fn (mp m') = StDetect1 -> crest (mc m') <> []
  | Exit _ => state_fn (mp m') <> StDetect1
  | Fail _ => True
  end.

Lemma table_none t stop b : List.length t = 255%nat -> b < 255 ->
  stop_table (lookup t) stop b <> None.
Proof.
  intros L B H. unfold stop_table, lookup in H. destruct (nth_error t _) eqn:E; [discriminate|].
  apply nth_error_None in E. unfold byte in *. lia.
Qed.

Lemma small_mid x b y : Forall (fun b : byte => b < 255) (x ++ b :: y) -> b < 255.
Proof. intros H. apply Forall_app in H. destruct H as [_ H]. now inversion H. Qed.

Lemma upper_le (n l : nat) : (n <= l)%nat -> (N.to_nat (N.of_nat n mod 2 ^ 14) <= l)%nat.
Proof. intros H. pose proof (N.mod_le (N.of_nat n) (2 ^ 14)). lia. Qed.

Lemma leb_lt_false (l x : list byte) n :
  (n <=? List.length l)%nat = true -> (List.length l < List.length x)%nat ->
  (List.length x <=? n)%nat = true -> False.
Proof. intros A B C. apply Nat.leb_le in A, C. lia. Qed.

Lemma bd_ok_upper p v s :
  bd_ok p -> (parser_type p = Multipart -> forall bd, boundary p = Some bd -> (N.to_nat v <= List.length bd)%nat) ->
  bd_ok (p_set_state (set_upper14 p v) s) /\ bd_ok (set_upper14 p v).
Proof.
  intros B L. assert (K : bd_ok (set_upper14 p v)).
  { intros T. destruct (B T) as (bd & E & _). exists bd. split; [exact E|].
    rewrite get_set_upper. specialize (L T bd E).
    pose proof (N.mod_le v (2 ^ 14)). lia. }
  split; [intros T; exact (K T) | exact K].
Qed.

Lemma bd_ok_lower p v s :
  bd_ok p -> v < 2 ^ 14 -> bd_ok (p_set_state (set_lower14 p v) s).
Proof.
  intros B L T. destruct (B T) as (bd & E & G). exists bd. split; [exact E|].
  change (get_upper14 (p_set_state (set_lower14 p v) s)) with (get_upper14 (set_lower14 p v)).
  now rewrite get_upper_set_lower.
Qed.

Lemma cut_text_length (u : nat) (l0 r : list byte) :
  List.length (if (List.length l0 - u <=? List.length r)%nat then skipn u l0
               else firstn (List.length r) (skipn u l0))
  = Nat.min (List.length l0 - u) (List.length r).
Proof.
  destruct (Nat.leb_spec (List.length l0 - u) (List.length r)).
  - rewrite skipn_length. lia.
  - rewrite firstn_length, skipn_length. lia.
Qed.

Lemma run_fn_safe h m :
  Forall (fun b : byte => b < 255) (crest (mc m)) ->
  vstate (parser_type (mp m)) (state_fn (mp m)) = true -> bd_ok (mp m) ->
  (state_fn (mp m) = StDetect1 -> crest (mc m) <> []) ->
  wp (run_fn h m) (safe_post m).
Proof.
  destruct m as [p [cb mk sl r] l]. unfold run_fn. cbn [mp mc crest].
  intros F V B D. revert V B D.
  destruct (state_fn p) eqn:Efn; cbv beta delta [vstate]; cbv iota beta; intros V B D.
  all: try (match goal with V : context [parser_type ?q] |- _ => destruct (parser_type q) eqn:T end).
  all: try discriminate V; clear V.
  all: unfold_state; lits.
  all: wp_all.
  all: unfold safe_post; cbn [mp mc crest state_fn p_set_state with_length set_upper14 set_lower14 with_bits].
  all: rewrite ?Efn.
  all: try (split; [|first [exact I | discriminate | intros; discriminate]]).
  all: try (unfold bd_ok; cbn [parser_type p_set_state with_length set_upper14 set_lower14 with_bits]; rewrite T; discriminate).
  all: try (intros B0; exact B0).
  all: try (match goal with |- _ /\ False => exfalso end).
  all: try match goal with
    | L : (List.length ?l < List.length ?x)%nat, K : (_ <=? List.length ?l)%nat = true |- False =>
        exact (leb_lt_false l x _ K L eq_refl)
    | L : (List.length ?l < List.length [_])%nat |- False =>
        clear - L D; destruct l; [now apply D | cbn in *; lia]
    | V : stop_table _ ?s ?b = None |- False =>
        first [ exact (table_none TOKENS s b eq_refl (small_mid _ _ _ F) V)
              | exact (table_none HEADER_FIELDS s b eq_refl (small_mid _ _ _ F) V)
              | exact (table_none QUOTED_HEADER_FIELDS s b eq_refl (small_mid _ _ _ F) V)
              | exact (table_none URL_ENCODED s b eq_refl (small_mid _ _ _ F) V) ]
    end.
  all: rewrite ?T.
  all: try (split; [|first [exact I | discriminate | intros; discriminate]]).
  all: try (unfold bd_ok; cbn [parser_type p_set_state with_length set_upper14 set_lower14 with_bits]; rewrite T; discriminate).
  all: try (intros B0; exact B0).
  - now destruct (D eq_refl).
  - destruct (b =? 13); (split; [exact (fun z => z) | discriminate]).
  - destruct (b =? 13); (split; [exact (fun z => z) | discriminate]).
  - destruct (B T) as (bd & E & G). rewrite Heqo in E. injection E as <-.
    apply Nat.ltb_lt in H0. lia.
  - rewrite cut_text_length in H1. lia.
  - intros _. refine (proj1 (bd_ok_upper p 0 _ B _)). intros; lia.
  - intros _. refine (proj2 (bd_ok_upper p _ StDead B _)). intros _ bd E2.
    rewrite Heqo in E2. injection E2 as <-. rewrite cut_text_length. apply Nat.ltb_ge in H0. lia.
  - intros _. refine (proj1 (bd_ok_upper p 0 _ B _)). intros; lia.
  - intros _. refine (proj1 (bd_ok_upper p 0 _ B _)). intros; lia.
  - destruct (B T) as (bd & E & G). rewrite Heqo in E. discriminate.
  - intros _. apply bd_ok_lower; [exact B | reflexivity].
  - intros _. apply bd_ok_lower; [exact B | reflexivity].
Qed.

Lemma parse_safe h fuel : forall m m' r,
  Forall (fun b : byte => b < 255) (crest (mc m)) ->
  vstate (parser_type (mp m)) (state_fn (mp m)) = true -> bd_ok (mp m) ->
  (state_fn (mp m) = StDetect1 -> crest (mc m) <> []) ->
  parse fuel h m = (m', r) ->
  bd_ok (mp m') /\ (forall f, r <> RFault f) /\
  (r <> RFuel -> state_fn (mp m') <> StDetect1).
Proof.
  induction fuel as [|fuel IH]; intros m m' r F V B D E; cbn [parse] in E.
  - injection E as <- <-. now split.
  - destruct (run_fn h m) as [m1 o] eqn:R.
    destruct (wp_run _ _ (run_fn_safe h m F V B D) _ _ R) as [B1 O].
    specialize (B1 B).
    destruct o as [|s|e|f].
    + apply IH in E; trivial.
      * destruct (mi_suf _ _ _ (wp_run _ _ (run_fn_misc h m) _ _ R)) as (x & X).
        rewrite X in F. now apply Forall_app in F.
      * exact (proj1 (wp_run _ _ (run_fn_vstate h m V) _ _ R)).
    + injection E as <- <-. destruct s; cbn; (split; [exact B1|]); (split; [discriminate|]);
        intros _; exact O.
    + injection E as <- <-. split; [exact B1|]. split; discriminate.
    + destruct O.
Qed.

Lemma resume_safe h p log (s : list byte) p' log' r :
  Forall (fun b : byte => b < 255) s ->
  vstate (parser_type p) (state_fn p) = true -> bd_ok p ->
  (state_fn p = StDetect1 -> s <> []) ->
  resume h p log s = (p', log', r) ->
  bd_ok p' /\ (forall f, r <> RFault f) /\ state_fn p' <> StDetect1.
Proof.
  intros F V B D E.
  pose proof (rf_type _ _ _ _ _ _ (resume_facts_all _ _ _ _ _ _ _ V E)) as TY.
  destruct (parser_type p) eqn:T.
  1-3: unfold resume in E; rewrite T in E;
    destruct (parse _ _ _) as [m r0] eqn:P in E; injection E as <- <- <-;
    pose proof (pf_fuel _ _ _ _ _ (parse_facts_all _ _ _ _ _ _ P)) as NF;
    rewrite <- T in V; destruct (parse_safe h _ (Mach p (bs_new s) log) _ _ F V B D P) as (A1 & A2 & A3);
    (split; [exact A1|]); (split; [exact A2|]); exact (A3 NF).
  split; [intros X; congruence|].
  unfold resume in E; rewrite T in E; cbv zeta in E; rewrite cut_eq in E.
  set (n := N.to_nat (plength p)) in *. set (c := firstn n s) in *.
  destruct (parse (fuel_of c) h (Mach p (bs_new c) log)) as [m r0] eqn:P.
  pose proof (parse_facts_all _ _ _ _ _ _ P) as PF.
  rewrite <- T in V.
  assert (Fc : Forall (fun b : byte => b < 255) c).
  { rewrite <- (firstn_skipn n s) in F. now apply Forall_app in F. }
  assert (Dc : state_fn p = StDetect1 -> c <> []).
  { intros X. rewrite T, X in V. discriminate V. }
  pose proof (parse_safe h _ (Mach p (bs_new c) log) _ _ Fc V B Dc P) as (A1 & A2 & A3).
  pose proof (pf_fuel _ _ _ _ _ PF) as NF. specialize (A3 NF).
  assert (LE : plength (mp m) = N.of_nat n) by (rewrite (pf_length _ _ _ _ _ PF V T); unfold n; lia).
  assert (Hc : List.length c = Nat.min n (List.length s)) by apply firstn_length.
  destruct r0 as [[n1|n1|n1]|e|f|]; try congruence.
  - destruct (pf_cb _ _ _ _ _ PF n1 eq_refl) as (G1 & _). unfold byte in *.
    destruct (N.ltb_spec (plength (mp m)) (N.of_nat n1)) as [X|X]; [exfalso; lia|].
    injection E as <- <- <-. now split.
  - destruct (pf_eos _ _ _ _ _ PF n1 eq_refl) as (G1 & _). unfold byte in *.
    destruct (N.ltb_spec (plength (mp m)) (N.of_nat n1)) as [X|X]; [exfalso; lia|].
    destruct (N.eqb_spec (plength (mp m) - N.of_nat n1) 0) as [Z|Z].
    + destruct (parse _ h (with_p _ _)) as [m2 r2] eqn:P2 in E. injection E as <- <- <-.
      replace (fuel_of c) with (Datatypes.S (Datatypes.S (fuel_of c - 2))) in P2 by (unfold fuel_of; lia).
      apply body_finish in P2; [|reflexivity|].
      * destruct P2 as (_ & Q2 & _ & _ & _ & _ & Q7). rewrite Q2. destruct Q7 as [-> | ->]; now split.
      * cbn [with_p mp p_set_state parser_type]. now rewrite (pf_type _ _ _ _ _ PF).
    + injection E as <- <- <-. now split.
  - injection E as <- <- <-. now split.
  - injection E as <- <- <-. now split.
Qed.

(* A proper parser is in a state in which no step can fault. *)
Record sound (v : bool) (p : parser) : Prop := {
  so_v : vstate (parser_type p) (state_fn p) = true;
  so_bd : parser_type p = Multipart -> boundary p <> None -> bd_ok p;
  so_first : state_fn p = StDetect1 -> v = true
}.

Lemma sound_reset p : sound false (reset p).
Proof.
  constructor.
  - unfold reset. destruct p as [b d c n [] s f]; reflexivity.
  - intros _ N. exfalso. apply N. unfold reset. destruct p as [b d c n [] s f]; reflexivity.
  - intros E. exfalso. revert E. unfold reset. destruct p as [b d c n [] s f]; discriminate.
Qed.

Lemma proper_sound v p : proper v p -> sound v p.
Proof.
  induction 1 as [|v p H IH|v p H IH|v p H IH|v p H IH|v p H IH|v p b H IH R|v p n H IH
                 |v p h log s p' log' r H IH (F & M & NE) R].
  - constructor; [reflexivity|discriminate|reflexivity].
  - apply sound_reset.
  - apply sound_reset.
  - apply sound_reset.
  - apply sound_reset.
  - apply sound_reset.
  - constructor.
    + exact (so_v _ _ IH).
    + intros T _ _. exists b. split; [reflexivity|].
      change (get_upper14 (set_boundary p b)) with (get_upper14 p).
      rewrite (R T). unfold reset. cbn [parser_type]. change (parser_type p = Multipart) in T. rewrite T.
      cbn. lia.
    + exact (so_first _ _ IH).
  - constructor; [exact (so_v _ _ IH)|exact (so_bd _ _ IH)|exact (so_first _ _ IH)].
  - destruct (resume_safe h p log s p' log' r F (so_v _ _ IH)) as (A1 & A2 & A3); trivial.
    + intros T. exact (so_bd _ _ IH T (M T) T).
    + intros X. exact (NE (so_first _ _ IH X)).
    + constructor.
      * exact (rf_vstate _ _ _ _ _ _ (resume_facts_all _ _ _ _ _ _ _ (so_v _ _ IH) R)).
      * intros _ _. exact A1.
      * intros X. now destruct A3.
Qed.

Lemma proper_no_fault v p h log s p' log' r :
  proper v p -> feedable v p s -> resume h p log s = (p', log', r) -> forall f, r <> RFault f.
Proof.
  intros P (F & M & NE) R. pose proof (proper_sound v p P) as IH.
  destruct (resume_safe h p log s p' log' r F (so_v _ _ IH)) as (_ & A2 & _); trivial.
  - intros T. exact (so_bd _ _ IH T (M T) T).
  - intros X. exact (NE (so_first _ _ IH X)).
Qed.

Lemma client_no_fault h fuel : forall v p log segs p' log' rest o,
  proper v p -> Forall (feedable false p) segs -> (v = true -> hd [] segs <> [] \/ segs = []) ->
  client fuel h p log segs = (p', log', rest, o) -> forall f, o <> OFault f.
Proof.
  induction fuel as [|fuel IH]; intros v p log segs p' log' rest o P F NE E f; cbn [client] in E.
  - destruct segs; injection E as <- <- <- <-; discriminate.
  - destruct segs as [|seg more]; [injection E as <- <- <- <-; discriminate|].
    destruct (resume h p log seg) as [[p1 log1] r] eqn:R.
    inversion F as [|? ? F1 F2]; subst.
    assert (FS : feedable v p seg).
    { destruct F1 as (X1 & X2 & _). split; [exact X1|]. split; [exact X2|]. intros Y.
      destruct (NE Y) as [Z|Z]; [exact Z|discriminate Z]. }
    pose proof (proper_no_fault v p h log seg p1 log1 r P FS R) as NFa.
    pose proof (proper_resume v p h log seg p1 log1 r P FS R) as P1.
    pose proof (resume_facts_all _ _ _ _ _ _ _ (so_v _ _ (proper_sound v p P)) R) as RF.
    assert (K : forall s, feedable false p s -> feedable false p1 s).
    { intros s (X1 & X2 & _). split; [exact X1|]. split; [|discriminate].
      rewrite (rf_type _ _ _ _ _ _ RF), (rf_bd _ _ _ _ _ _ RF). exact X2. }
    destruct r as [[n|n|n]|e|f0|]; try (injection E as <- <- <- <-; congruence).
    + refine (IH false p1 _ _ _ _ _ _ P1 _ _ E f); [constructor|discriminate].
      * destruct F1 as (X1 & X2 & X3). apply K. split; [|now split].
        rewrite <- (firstn_skipn n seg) in X1. now apply Forall_app in X1.
      * revert F2. apply Forall_impl. exact K.
    + refine (IH false p1 _ _ _ _ _ _ P1 _ _ E f); [|discriminate].
      revert F2. apply Forall_impl. exact K.
Qed.

(* ------------------------------------------------------------------ *)
(* Position of errors, whole calls                                      *)
(* ------------------------------------------------------------------ *)

Lemma parse_err h fuel : forall m m' e,
  parse fuel h m = (m', RErr e) ->
  match error_byte e with
  | Some b => exists x, crest (mc m) = x ++ b :: crest (mc m')
  | None => state_fn (mp m) = StDead
  end.
Proof.
  induction fuel as [|fuel IH]; intros m m' e E; cbn [parse] in E; [discriminate|].
  destruct (run_fn h m) as [m1 o] eqn:R.
  pose proof (wp_run _ _ (run_fn_err h m) _ _ R) as Q.
  pose proof (wp_run _ _ (run_fn_misc h m) _ _ R) as MI.
  pose proof (wp_run _ _ (run_fn_alive h m) _ _ R) as AL.
  destruct o as [|s|e1|f]; try discriminate.
  - apply IH in E. destruct (error_byte e) as [b|].
    + destruct (mi_suf _ _ _ MI) as (x & X). destruct E as (y & Y). exists (x ++ y).
      rewrite X, Y. now rewrite app_assoc.
    + now destruct (AL eq_refl).
  - injection E as <- <-. specialize (Q e1 eq_refl). destruct (error_byte e1).
    + exact Q.
    + now destruct Q.
Qed.

Lemma parse_err_pos h p s log m e b n :
  parse n h (Mach p (bs_new s) log) = (m, RErr e) -> n = fuel_of s -> error_byte e = Some b ->
  exists x y, s = x ++ b :: y /\ byte_count (mp m) = byte_count p + N.of_nat (S (List.length x)).
Proof.
  intros P -> B. pose proof (parse_err _ _ _ _ _ P) as Q. rewrite B in Q. destruct Q as (x & X).
  cbn [mc bs_new crest] in X.
  pose proof (parse_facts_all _ _ _ _ _ _ P) as PF.
  exists x, (crest (mc m)). split; [exact X|].
  rewrite (pf_count _ _ _ _ _ PF) by discriminate. f_equal. f_equal.
  pose proof (pf_pos _ _ _ _ _ PF) as Y. rewrite X, app_length in Y. cbn [List.length] in Y. lia.
Qed.

Lemma resume_err h p log s p' log' e :
  vstate (parser_type p) (state_fn p) = true ->
  resume h p log s = (p', log', RErr e) -> state_fn p <> StDead ->
  exists b x y, error_byte e = Some b /\ s = x ++ b :: y /\
    byte_count p' = byte_count p + N.of_nat (S (List.length x)).
Proof.
  intros V E ND.
  destruct (error_byte e) as [b|] eqn:B.
  - exists b. unfold resume in E. destruct (parser_type p) eqn:T.
    1-3: destruct (parse _ _ _) as [m r0] eqn:P in E; injection E as <- <- ->;
      destruct (parse_err_pos _ _ _ _ _ _ _ _ P eq_refl B) as (x & y & X & Y); exists x, y; now repeat split.
    cbv zeta in E. rewrite cut_eq in E.
    set (n := N.to_nat (plength p)) in *. set (c := firstn n s) in *.
    destruct (parse (fuel_of c) h (Mach p (bs_new c) log)) as [m r0] eqn:P.
    destruct r0 as [[n1|n1|n1]|e1|f|]; try discriminate.
    + destruct (_ <? _) in E; discriminate.
    + destruct (_ <? _) in E; [discriminate|]. destruct (_ =? 0) in E; [|discriminate].
      destruct (parse _ h (with_p _ _)) as [m2 r2] eqn:P2 in E. injection E as _ _ ->. exfalso.
      replace (fuel_of c) with (Datatypes.S (Datatypes.S (fuel_of c - 2))) in P2 by (unfold fuel_of; lia).
      apply body_finish in P2; [|reflexivity|].
      * destruct P2 as (_ & _ & _ & _ & _ & _ & [Q7 | Q7]); discriminate.
      * cbn [with_p mp p_set_state parser_type]. now rewrite (pf_type _ _ _ _ _ (parse_facts_all _ _ _ _ _ _ P)).
    + injection E as <- <- ->.
      destruct (parse_err_pos _ _ _ _ _ _ _ _ P eq_refl B) as (x & y & X & Y).
      exists x, (y ++ skipn n s). split; [reflexivity|]. split; [|exact Y].
      rewrite <- (firstn_skipn n s) at 1. fold c. rewrite X. now rewrite <- app_assoc.
  - exfalso. unfold resume in E. destruct (parser_type p) eqn:T.
    1-3: destruct (parse _ _ _) as [m r0] eqn:P in E; injection E as <- <- ->;
      apply parse_err in P; rewrite B in P; now apply ND.
    cbv zeta in E. rewrite cut_eq in E.
    set (n := N.to_nat (plength p)) in *. set (c := firstn n s) in *.
    destruct (parse (fuel_of c) h (Mach p (bs_new c) log)) as [m r0] eqn:P.
    destruct r0 as [[n1|n1|n1]|e1|f|]; try discriminate.
    + destruct (_ <? _) in E; discriminate.
    + destruct (_ <? _) in E; [discriminate|]. destruct (_ =? 0) in E; [|discriminate].
      destruct (parse _ h (with_p _ _)) as [m2 r2] eqn:P2 in E. injection E as _ _ ->.
      replace (fuel_of c) with (Datatypes.S (Datatypes.S (fuel_of c - 2))) in P2 by (unfold fuel_of; lia).
      apply body_finish in P2; [|reflexivity|].
      * destruct P2 as (_ & _ & _ & _ & _ & _ & [Q7 | Q7]); discriminate.
      * cbn [with_p mp p_set_state parser_type]. now rewrite (pf_type _ _ _ _ _ (parse_facts_all _ _ _ _ _ _ P)).
    + injection E as <- <- ->. apply parse_err in P; rewrite B in P; now apply ND.
Qed.

Lemma reachable_err h p log s p' log' e :
  reachable p -> resume h p log s = (p', log', RErr e) ->
  match error_byte e with
  | Some b => exists x y, s = x ++ b :: y /\
      byte_count p' = byte_count p + N.of_nat (S (List.length x))
  | None => forall h' log' s', snd (resume h' p log' s') = RErr ErDead
  end.
Proof.
  intros R E. pose proof (reachable_vstate p R) as V.
  assert (DD : state_fn p = StDead \/ state_fn p <> StDead)
    by (destruct (state_fn p); ((now left) || (right; discriminate))).
  destruct DD as [DD|DD].
  - rewrite resume_dead in E by assumption. injection E as <- <- <-. cbn [error_byte].
    intros. now rewrite resume_dead.
  - destruct (resume_err h p log s p' log' e V E DD) as (b & x & y & B & X & Y).
    rewrite B. exists x, y. now split.
Qed.
