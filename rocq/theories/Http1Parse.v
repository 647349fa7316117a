(* What the automaton accepts, against the grammar of Http1Accept.v: header
   lines and heads. *)

From Coq Require Import NArith List Bool Arith String Lia.
From Verif Require Import Bytes ByteStream Http1Model Http1Base Http1Wp Http1Term Http1Spec Http1Sem
  Http1Sim Http1Step Http1Misc Http1Run Http1Client Http1Api Http1Protocol Http1Data Http1Wire
  Http1Round Http1Round2 Http1Accept.
Import ListNotations.
Local Open Scope N_scope.

(* ------------------------------------------------------------------ *)
(* Byte classes                                                         *)
(* ------------------------------------------------------------------ *)

Lemma lookup_small t b x : lookup t b = Some x -> b < N.of_nat (List.length t).
Proof.
  unfold lookup. intros H. assert (X : nth_error t (N.to_nat b) <> None) by congruence.
  apply nth_error_Some in X. lia.
Qed.

Lemma lookup_only t (P : byte -> bool) :
  forallb (fun i => implb (match lookup t (N.of_nat i) with Some true => true | _ => false end) (P (N.of_nat i)))
          (seq 0 (List.length t)) = true ->
  forall b, lookup t b = Some true -> P b = true.
Proof.
  intros H b E. pose proof (lookup_small _ _ _ E) as L. rewrite forallb_forall in H.
  specialize (H (N.to_nat b)). rewrite N2Nat.id, E in H. apply H. apply in_seq. lia.
Qed.

Lemma token_tchar b : is_token b = Some true -> tchar b = true.
Proof. apply (lookup_only _ tchar). vm_compute. reflexivity. Qed.

Lemma field_is b : is_header_field b = Some true -> field_byte b = true /\ b <> 34.
Proof.
  intros H. assert (X : (field_byte b && negb (b =? 34)) = true).
  { revert b H. apply (lookup_only _ (fun b => field_byte b && negb (b =? 34))). vm_compute. reflexivity. }
  apply andb_true_iff in X. destruct X as [X1 X2]. split; [exact X1|].
  apply negb_true_iff, N.eqb_neq in X2. exact X2.
Qed.

Lemma quoted_is b : is_quoted_header_field b = Some true -> field_byte b = true /\ b <> 34 /\ b <> 92.
Proof.
  intros H. assert (X : (field_byte b && negb (b =? 34) && negb (b =? 92)) = true).
  { revert b H. apply (lookup_only _ (fun b => field_byte b && negb (b =? 34) && negb (b =? 92))). vm_compute. reflexivity. }
  rewrite !andb_true_iff, !negb_true_iff, !N.eqb_neq in X. tauto.
Qed.

Lemma upper_inv (b : byte) : is_upper b = true -> 65 <= b <= 90.
Proof. unfold is_upper. rewrite andb_true_iff, !N.ltb_lt. unfold byte in *. lia. Qed.

Lemma digit_inv b : is_digit b = true -> digit b.
Proof. unfold is_digit, digit. rewrite andb_true_iff, !N.leb_le. auto. Qed.

Lemma status_inv (b : byte) : is_status_byte b = true -> 32 <= b /\ b <> 127.
Proof.
  unfold is_status_byte. rewrite andb_true_iff, N.ltb_lt, negb_true_iff, N.eqb_neq. unfold byte in *. lia.
Qed.

(* ------------------------------------------------------------------ *)
(* Accepting runs                                                       *)
(* ------------------------------------------------------------------ *)

(* The result of a run that finishes. *)
Definition finishes (x : aout) (L : list fevent) (tail : list byte) : Prop :=
  exists a, x = ADone L a tail /\ a_st a = StFinished.

Lemma finishes_step t bd clen a l r L tl :
  needs_byte (a_st a) = true -> finishes (aexec t bd clen a l r) L tl ->
  exists b r' ev a', r = b :: r' /\ abyte_raw bd a b = AGo ev a' /\
    finishes (aexec t bd clen (nrm t a') (l ++ ev) r') L tl.
Proof.
  intros N (aF & E & F). destruct r as [|b r].
  - rewrite aexec_nil in E by exact N. injection E as -> <- <-. rewrite F in N. discriminate N.
  - rewrite aexec_byte in E by exact N. unfold abyte in E.
    destruct (abyte_raw bd a b) as [ev a'|ev e|] eqn:R; try discriminate E.
    exists b, r, ev, a'. repeat split; try assumption. now exists aF.
Qed.

Lemma finishes_eps t bd clen a l r L tl ev a' :
  aeps t clen l a = Some (ev, a') -> finishes (aexec t bd clen a l r) L tl ->
  finishes (aexec t bd clen a' (l ++ ev) r) L tl.
Proof. intros H F. now rewrite (aexec_eps _ _ _ _ _ _ _ _ H) in F. Qed.

(* Tests that were decided. *)
Ltac known :=
  repeat match goal with
  | H : (_ =? _) = true |- _ => apply N.eqb_eq in H
  | H : (_ =? _) = false |- _ => apply N.eqb_neq in H
  | H : (_ || _)%bool = true |- _ => apply orb_true_iff in H
  | H : (_ || _)%bool = false |- _ => apply orb_false_iff in H; destruct H
  | H : (_ && _)%bool = true |- _ => apply andb_true_iff in H; destruct H
  | H : _ \/ _ |- _ => destruct H
  end.

(* Case analysis on the step of one byte. *)
Ltac cases H :=
  cbv beta delta [by_table a_method a_detect1 a_detect a_expect a_url1 a_url2 a_major1 a_major23 a_minor1
    a_version_end a_minor23 a_code a_status2 a_lower_name a_first_name a_check_name
    a_value a_quoted a_escaped a_chunk_cr a_chunk_n a_ext_finished a_ext_name a_ext_value
    a_ext_quoted a_ext_escaped a_by_length a_by_byte a_hyphen a_boundary_cr
    a_url_name a_url_value a_hex1 a_hex2 a_strip] in H;
  cbn [abyte_raw a_st a_lo a_up a_len st st_lo st_up st_len] in H;
  repeat (match type of H with
  | (if ?c then _ else _) = _ => destruct c eqn:?
  | match ?c with Some _ => _ | None => _ end = _ => destruct c eqn:?
  | context [if ?c then _ else _] =>
      lazymatch c with context [if _ then _ else _] => fail | _ => destruct c eqn:? end
  | context [match ?c with Some _ => _ | None => _ end] =>
      lazymatch c with context [if _ then _ else _] => fail | _ => destruct c eqn:? end
  end; cbn [with_ev a_st a_lo a_up a_len st st_lo st_up st_len] in H; try discriminate H);
  try (injection H as <- <-).

(* Read one byte. *)
Ltac step F b r :=
  let ev := fresh "ev" in let a := fresh "a" in let R := fresh "R" in
  apply finishes_step in F; [|reflexivity];
  destruct F as (b & r & ev & a & -> & R & F);
  cbn [abyte_raw a_st vstate_of] in R; cases R;
  cbv beta delta [st st_lo st_up st_len] in F; cbn [a_lo a_up a_len] in F.

Section Lines.
  Variables (t : ptype) (bd : option (list byte)) (clen : list fevent -> option N) (lo up len : N).
  Hypothesis K : forall s, uses_lo s = false -> uses_up s = false -> nrm t (A s lo up len) = A s lo up len.
  Variables (L : list fevent) (tail : list byte).

  Notation S s := (A s lo up len).
  Notation run s l r := (finishes (aexec t bd clen (A s lo up len) l r) L tail).

  Lemma text_inv : forall r m l, run (vstate_of m) l r ->
    exists v r', field_text_ok m v = true /\ r = v ++ 13 :: r' /\ run StHeaderLf1 (l ++ map (FByte KHeaderValue) v) r'.
  Proof.
    induction r as [|b r IH]; intros m l F.
    - apply finishes_step in F; [|now destruct m]. destruct F as (? & ? & ? & ? & X & _). discriminate X.
    - apply finishes_step in F; [|now destruct m].
      destruct F as (b' & r' & ev & a & [= <- <-] & R & F).
      assert (C : (m = Plain /\ b = 13 /\ ev = [] /\ a = S StHeaderLf1) \/
                  exists m', ev = [FByte KHeaderValue b] /\ a = S (vstate_of m') /\
                    forall v, field_text_ok m' v = true -> field_text_ok m (b :: v) = true).
      { destruct m; cbn [abyte_raw a_st vstate_of] in R; cases R; known; subst.
        - destruct (field_is _ Heqo) as [X1 X2]. right. exists Plain. repeat split. intros v H.
          cbn [field_text_ok]. apply N.eqb_neq in X2. now rewrite X2, X1.
        - left. auto.
        - right. exists Quoted. repeat split; intros v H; exact H.
        - destruct (quoted_is _ Heqo) as (X1 & X2 & X3). right. exists Quoted. repeat split. intros v H.
          cbn [field_text_ok]. apply N.eqb_neq in X2, X3. now rewrite X2, X3, X1.
        - right. exists Plain. repeat split; intros v H; exact H.
        - right. exists Escaped. repeat split; intros v H; exact H.
        - right. exists Quoted. repeat split. intros v H. cbn [field_text_ok]. rewrite H.
          unfold is_escapable in Heqb0. rewrite andb_true_iff, !N.ltb_lt in Heqb0.
          rewrite !andb_true_iff, !N.leb_le. unfold byte in *. lia. }
      destruct C as [(-> & -> & -> & ->)|(m' & -> & -> & C)].
      + rewrite K in F by reflexivity. exists [], r. repeat split. cbn [map]. rewrite app_nil_r in *. exact F.
      + rewrite K in F by (now destruct m'). destruct (IH _ _ F) as (v & r' & V & -> & F').
        exists (b :: v), r'. repeat split; [now apply C|]. rewrite <- app_assoc in F'. exact F'.
  Qed.

  (* white space, then a value *)
  Lemma value_inv : forall r l, run StStripHeaderValue l r ->
    exists p v r', padding p /\ starts_visible v /\ field_text_ok Plain v = true /\ r = p ++ v ++ 13 :: r' /\
      run StHeaderLf1 (l ++ map (FByte KHeaderValue) v) r'.
  Proof.
    induction r as [|b r IH]; intros l F.
    - apply finishes_step in F; [|reflexivity]. destruct F as (? & ? & ? & ? & X & _). discriminate X.
    - pose proof F as F0. apply finishes_step in F; [|reflexivity].
      destruct F as (b' & r' & ev & a & [= <- <-] & R & F).
      cbn [abyte_raw a_st] in R. unfold a_strip in R.
      destruct ((b =? 32) || (b =? 9)) eqn:W.
      + injection R as <- <-. rewrite K in F by reflexivity. rewrite app_nil_r in F.
        destruct (IH _ F) as (p & v & r' & P & V & T & -> & G).
        exists (b :: p), v, r'. repeat split; try assumption. constructor; [|exact P]. now known; subst; auto.
      + destruct (is_visible_7bit b) eqn:V; [|discriminate R].
        assert (F1 : run (vstate_of Plain) l (b :: r)).
        { unfold finishes. rewrite aexec_byte by reflexivity. unfold abyte. cbn [abyte_raw a_st vstate_of].
          change (a_value (S StHeaderValue) b) with (a_value (S StStripHeaderValue) b). rewrite R. exact F. }
        destruct (text_inv _ _ _ F1) as (v & r' & T & E & G).
        destruct v as [|c v].
        { cbn [app] in E. injection E as -> _. discriminate V. }
        cbn [app] in E. injection E as <- ->.
        exists [], (b :: v), r'. repeat split; try assumption. constructor.
  Qed.

  Lemma lf_inv r l : run StHeaderLf1 l r -> exists r', r = 10 :: r' /\ run StHeaderCr2 l r'.
  Proof.
    intros F. step F b r'. known. subst. rewrite K in F by reflexivity. rewrite app_nil_r in F. eauto.
  Qed.

  (* the rest of a name *)
  Lemma name_inv : forall r l, run StLowerHeaderName l r ->
    exists n r', Forall (fun b => tchar b = true) n /\ r = n ++ 58 :: r' /\
      run StStripHeaderValue (l ++ map (FByte KHeaderName) (map lower_case n)) r'.
  Proof.
    induction r as [|b r IH]; intros l F.
    - apply finishes_step in F; [|reflexivity]. destruct F as (? & ? & ? & ? & X & _). discriminate X.
    - apply finishes_step in F; [|reflexivity].
      destruct F as (b' & r' & ev & a & [= <- <-] & R & F).
      cbn [abyte_raw a_st] in R.
      assert (C : (tchar b = true /\ ev = [FByte KHeaderName (lower_case b)] /\ a = S StLowerHeaderName) \/
                  (b = 58 /\ ev = [] /\ a = S StStripHeaderValue)).
      { cases R; [left|left|right]; known; repeat split; try (now apply token_tchar); try assumption;
        rewrite <- tchar_lower; match goal with H : is_upper b = _ |- _ => now rewrite H end. }
      destruct C as [(C & -> & ->)|(-> & -> & ->)]; rewrite K in F by reflexivity.
      + destruct (IH _ F) as (n & r' & N & -> & G). exists (b :: n), r'. repeat split; [now constructor|].
        rewrite <- app_assoc in G. exact G.
      + exists [], r. repeat split; [constructor|]. cbn [map]. exact F.
  Qed.

  (* one line, or the end *)
  Lemma line_inv r l : run StHeaderCr2 l r ->
    (exists r', r = 13 :: 10 :: r' /\ run StHeaderEnd l r') \/
    (exists w e r', line_as w e /\ r = w ++ r' /\ run StHeaderCr2 (l ++ e) r').
  Proof.
    intros F. apply finishes_step in F; [|reflexivity]. destruct F as (b & r' & ev & a & -> & R & F).
    cbn [abyte_raw a_st] in R.
    assert (C : (b = 13 /\ ev = [] /\ a = S StHeaderLf2) \/
                ((b = 32 \/ b = 9) /\ ev = [] /\ a = S StHeaderValue) \/
                (tchar b = true /\ ev = [FByte KHeaderName (lower_case b)] /\ a = S StLowerHeaderName) \/
                (b = 58 /\ ev = [] /\ a = S StStripHeaderValue)).
    { cases R; known; subst; try (left; repeat split; reflexivity);
        try (right; left; repeat split; auto; fail);
        try (right; right; right; repeat split; reflexivity).
      all: right; right; left; repeat split; try (now apply token_tchar);
        rewrite <- tchar_lower; match goal with H : is_upper _ = _ |- _ => now rewrite H end. }
    destruct C as [(-> & -> & ->)|[(Cb & -> & ->)|[(C & -> & ->)|(-> & -> & ->)]]];
      rewrite K in F by reflexivity.
    - left. rewrite app_nil_r in F. step F b r2. known. subst. rewrite K in F by reflexivity.
      rewrite app_nil_r in F. eauto.
    - right. rewrite app_nil_r in F. destruct (text_inv _ Plain _ F) as (v & r2 & T & -> & G).
      destruct (lf_inv _ _ G) as (r3 & -> & G'). exists (b :: v ++ crlf), (map (FByte KHeaderValue) v), r3.
      repeat split; [now constructor| |exact G']. unfold crlf. cbn [app]. now rewrite <- app_assoc.
    - right. destruct (name_inv _ _ F) as (n & r2 & N & -> & G).
      destruct (value_inv _ _ G) as (p & v & r3 & P & V & T & -> & G').
      destruct (lf_inv _ _ G') as (r4 & -> & G'').
      exists ((b :: n) ++ [58] ++ p ++ v ++ crlf), (map (FByte KHeaderName) (map lower_case (b :: n)) ++ map (FByte KHeaderValue) v), r4.
      repeat split.
      + constructor; auto.
      + unfold crlf. cbn [app]. rewrite <- !app_assoc. cbn [app]. now rewrite <- !app_assoc.
      + rewrite <- !app_assoc in G''. exact G''.
    - right. rewrite app_nil_r in F.
      destruct (value_inv _ _ F) as (p & v & r3 & P & V & T & -> & G').
      destruct (lf_inv _ _ G') as (r4 & -> & G'').
      exists ([] ++ [58] ++ p ++ v ++ crlf), (map (FByte KHeaderName) (map lower_case []) ++ map (FByte KHeaderValue) v), r4.
      repeat split.
      + constructor; auto.
      + unfold crlf. cbn [app]. now rewrite <- !app_assoc.
      + exact G''.
  Qed.

  Lemma line_nonempty w e : line_as w e -> w <> [].
  Proof. intros [n p v|c v]; [|discriminate]. now destruct n. Qed.

  Lemma lines_inv : forall n r l, (List.length r <= n)%nat -> run StHeaderCr2 l r ->
    exists w e r', lines_as w (e ++ [FEv EHeadersFinished]) /\ r = w ++ r' /\ run StHeaderEnd (l ++ e) r'.
  Proof.
    induction n as [|n IH]; intros r l Len F.
    - destruct r; [|cbn in Len; lia]. apply finishes_step in F; [|reflexivity].
      destruct F as (? & ? & ? & ? & X & _). discriminate X.
    - destruct (line_inv _ _ F) as [(r' & -> & G)|(w & e & r' & W & -> & G)].
      + exists crlf, [], r'. repeat split; [constructor|]. now rewrite app_nil_r.
      + destruct (IH r' (l ++ e)) as (w' & e' & r2 & W' & -> & G'); [|exact G|].
        { pose proof (line_nonempty _ _ W) as N. rewrite app_length in Len. destruct w; [congruence|]. cbn in Len. lia. }
        exists (w ++ w'), (e ++ e'), r2. repeat split.
        * rewrite <- app_assoc. now constructor.
        * now rewrite app_assoc.
        * now rewrite app_assoc.
  Qed.

  (* the other direction *)
  Lemma line_run w e l r : line_as w e ->
    aexec t bd clen (S StHeaderCr2) l (w ++ r) = aexec t bd clen (S StHeaderCr2) (l ++ e) r.
  Proof.
    intros [n p v N P V T|c v C T].
    - rewrite <- !app_assoc.
      assert (X : forall l r, aexec t bd clen (S StStripHeaderValue) l (p ++ v ++ crlf ++ r) =
                              aexec t bd clen (S StHeaderCr2) (l ++ map (FByte KHeaderValue) v) r).
      { intros l0 r0. rewrite (pad_bytes t bd clen lo up len K) by exact P.
        rewrite (value_bytes t bd clen lo up len K) by assumption. unfold crlf. cbn [app].
        now rewrite (value_end t bd clen lo up len K). }
      destruct n as [|b n].
      + cbn [app map]. rewrite (keep t bd clen lo up len K StHeaderCr2 58 [] StStripHeaderValue) by reflexivity.
        rewrite app_nil_r. apply X.
      + inversion N as [|? ? N1 N2]; subst. cbn [app].
        rewrite (header_name_first t bd clen lo up len K) by auto.
        rewrite (name_bytes t bd clen lo up len K) by assumption. cbn [app].
        rewrite (keep t bd clen lo up len K StLowerHeaderName 58 [] StStripHeaderValue) by reflexivity.
        rewrite app_nil_r, X. f_equal. cbn [map]. now rewrite <- !app_assoc.
    - cbn [app]. rewrite (keep t bd clen lo up len K StHeaderCr2 c [] StHeaderValue) by
        (try reflexivity; destruct C as [-> | ->]; reflexivity).
      rewrite app_nil_r, <- app_assoc.
      rewrite (text_bytes t bd clen lo up len K v Plain) by assumption.
      unfold crlf. cbn [app]. now rewrite (value_end t bd clen lo up len K).
  Qed.

  Lemma lines_run w e : lines_as w e -> exists e', e = e' ++ [FEv EHeadersFinished] /\ forall l r,
    aexec t bd clen (S StHeaderCr2) l (w ++ r) = aexec t bd clen (S StHeaderEnd) (l ++ e') r.
  Proof.
    induction 1 as [|w e w' e' H1 H2 IH].
    - exists []. split; [reflexivity|]. intros l r. unfold crlf. cbn [app].
      rewrite (keep t bd clen lo up len K StHeaderCr2 13 [] StHeaderLf2) by reflexivity.
      rewrite (keep t bd clen lo up len K StHeaderLf2 10 [] StHeaderEnd) by reflexivity. now rewrite !app_nil_r.
    - destruct IH as (e2 & -> & IH). exists (e ++ e2). split; [now rewrite app_assoc|]. intros l r.
      rewrite <- app_assoc, (line_run _ _ _ _ H1). rewrite IH. now rewrite app_assoc.
  Qed.
End Lines.

(* ------------------------------------------------------------------ *)
(* Heads                                                                *)
(* ------------------------------------------------------------------ *)

Section Heads.
  Variables (bd : option (list byte)) (clen : list fevent -> option N) (L : list fevent) (tail : list byte).
  Notation run a l r := (finishes (aexec Head bd clen a l r) L tail).
  Notation Z s := (A s 0 0 0).

  Ltac go F b r := step F b r; cbn [nrm a_st a_lo a_up a_len uses_lo uses_up] in F; rewrite ?app_nil_r in F.

  Lemma no_end s l : needs_byte s = true -> forall lo up len, ~ run (A s lo up len) l [].
  Proof.
    intros N lo up len F. apply finishes_step in F; [|exact N]. destruct F as (? & ? & ? & ? & X & _). discriminate X.
  Qed.

  Lemma method_inv : forall r l, run (Z StRequestMethod) l r ->
    exists m r', Forall (fun b : byte => 65 <= b <= 90) m /\ r = m ++ 32 :: r' /\
      run (Z StRequestUrl1) (l ++ map (FByte KMethod) m) r'.
  Proof.
    induction r as [|b r IH]; intros l F; [now apply no_end in F|].
    apply finishes_step in F; [|reflexivity]. destruct F as (b' & r' & ev & a & [= <- <-] & R & F).
    cbn [abyte_raw a_st] in R. unfold a_method in R.
    destruct (is_upper b) eqn:U; [injection R as <- <-|].
    - destruct (IH _ F) as (m & r' & M & -> & G). exists (b :: m), r'. repeat split.
      + constructor; [now apply upper_inv|exact M].
      + rewrite <- app_assoc in G. exact G.
    - destruct (N.eqb_spec b 32) as [->|]; [injection R as <- <-|discriminate R].
      exists [], r. repeat split; [constructor|exact F].
  Qed.

  (* after a beginning pre of "HTTP" *)
  Definition after (pre more : list byte) (l : list fevent) (r : list byte) : Prop :=
    (exists m r', Forall (fun b : byte => 65 <= b <= 90) m /\ r = m ++ 32 :: r' /\
       run (Z StRequestUrl1) (l ++ map (FByte KMethod) (pre ++ m)) r') \/
    (exists r', r = more ++ r' /\ run (Z StResponseVersionMajor1) l r').

  Lemma detect_inv s pre expect s' more :
    needs_byte s = true -> uses_lo s' = false -> uses_up s' = false ->
    (forall b, abyte_raw bd (Z s) b = a_detect (Z s) pre expect s' b) ->
    (forall l r, run (Z s') l r -> exists x, x = more /\
       (65 <= expect <= 90 -> after (pre ++ [expect]) x l r) /\
       (~ 65 <= expect <= 90 -> x = [] /\ s' = StResponseVersionMajor1)) ->
    forall l r, run (Z s) l r -> after pre (expect :: more) l r.
  Proof.
    intros N U1 U2 E IH l r F. apply finishes_step in F; [|exact N].
    destruct F as (b & r' & ev & a & -> & R & F). rewrite E in R. unfold a_detect in R.
    destruct (N.eqb_spec b expect) as [->|NE].
    - injection R as <- <-. unfold st in F. cbn [nrm a_st a_lo a_up] in F. rewrite U1, U2, app_nil_r in F.
      destruct (IH _ _ F) as (x & -> & I1 & I2).
      destruct (N.leb_spec 65 expect) as [L1|L1]; [destruct (N.leb_spec expect 90) as [L2|L2]|].
      + destruct (I1 (conj L1 L2)) as [(m & r2 & M & -> & G)|(r2 & -> & G)].
        * left. exists (expect :: m), r2. repeat split; [now constructor|]. rewrite <- app_assoc in G. exact G.
        * right. exists r2. now split.
      + destruct (I2 ltac:(unfold byte in *; lia)) as [-> ->]. right. exists r'. now split.
      + destruct (I2 ltac:(unfold byte in *; lia)) as [-> ->]. right. exists r'. now split.
    - left. unfold a_method in R. destruct (is_upper b) eqn:U.
      + injection R as <- <-. destruct (method_inv _ _ F) as (m & r2 & M & -> & G).
        exists (b :: m), r2. repeat split; [constructor; [now apply upper_inv|exact M]|].
        rewrite map_app. cbn [map]. rewrite <- !app_assoc in G. exact G.
      + destruct (N.eqb_spec b 32) as [->|]; [|discriminate R]. injection R as <- <-.
        rewrite app_nil_r in F. exists [], r'. repeat split; [constructor|]. rewrite app_nil_r. exact F.
  Qed.

  Lemma start_inv_head : forall r l, run (Z StStripDetect) l r ->
    exists w, blank w /\
    ((exists m r', m <> [] /\ Forall (fun b : byte => 65 <= b <= 90) m /\ r = w ++ m ++ 32 :: r' /\
        run (Z StRequestUrl1) (l ++ map (FByte KMethod) m) r') \/
     (exists r', r = w ++ bs "HTTP/" ++ r' /\ run (Z StResponseVersionMajor1) l r')).
  Proof.
    induction r as [|b r IH]; intros l F; [now apply no_end in F|].
    apply finishes_step in F; [|reflexivity]. destruct F as (b' & r' & ev & a & [= <- <-] & R & F).
    cbn [abyte_raw a_st] in R.
    destruct ((b =? 13) || (b =? 10) || (b =? 9) || (b =? 32)) eqn:W.
    - injection R as <- <-. rewrite app_nil_r in F. destruct (IH _ F) as (w & B & C).
      exists (b :: w). split.
      + constructor; [|exact B]. known; subst; auto.
      + destruct C as [(m & r' & C1 & C2 & -> & C3)|(r' & -> & C)]; [left; exists m, r'|right; exists r']; now repeat split.
    - exists []. split; [constructor|]. unfold a_detect1 in R. destruct (N.eqb_spec b 72) as [->|N].
      + injection R as <- <-. rewrite app_nil_r in F. cbn [nrm a_st uses_lo uses_up st a_lo a_up] in F.
        assert (X : after (bs "H") (bs "TTP/") l r).
        { revert l r F IH. clear. intros l r F _. revert l r F.
          apply (detect_inv StDetect2 (bs "H") 84 StDetect3); try reflexivity. intros l r F. eexists. split; [reflexivity|].
          split; [intros _; revert l r F|intros X; exfalso; apply X; split; discriminate].
          apply (detect_inv StDetect3 (bs "HT") 84 StDetect4); try reflexivity. intros l r F. eexists. split; [reflexivity|].
          split; [intros _; revert l r F|intros X; exfalso; apply X; split; discriminate].
          apply (detect_inv StDetect4 (bs "HTT") 80 StDetect5); try reflexivity. intros l r F. eexists. split; [reflexivity|].
          split; [intros _; revert l r F|intros X; exfalso; apply X; split; discriminate].
          apply (detect_inv StDetect5 (bs "HTTP") 47 StResponseVersionMajor1); try reflexivity. intros l r F. eexists. split; [reflexivity|].
          split; [intros X; exfalso; destruct X as [X _]; now apply X|now split]. }
        destruct X as [(m & r' & M & -> & G)|(r' & -> & G)].
        * left. exists (72 :: m), r'. repeat split; [discriminate| |exact G]. constructor; [|exact M]. split; discriminate.
        * right. exists r'. now split.
      + destruct (is_upper b) eqn:U; [|discriminate R]. injection R as <- <-. left.
        destruct (method_inv _ _ F) as (m & r' & M & -> & G). exists (b :: m), r'. repeat split; [discriminate| |].
        * constructor; [now apply upper_inv|exact M].
        * rewrite <- app_assoc in G. exact G.
  Qed.

  Lemma url2_inv : forall r l, run (Z StRequestUrl2) l r ->
    exists u r', Forall (fun b => visible_byte b = true) u /\ r = u ++ 32 :: r' /\
      run (Z StRequestHttp1) (l ++ map (FByte KUrl) u) r'.
  Proof.
    induction r as [|b r IH]; intros l F; [now apply no_end in F|].
    apply finishes_step in F; [|reflexivity]. destruct F as (b' & r' & ev & a & [= <- <-] & R & F).
    cbn [abyte_raw a_st] in R. unfold a_url2 in R.
    destruct (is_visible_7bit b) eqn:U; [injection R as <- <-|].
    - destruct (IH _ F) as (m & r' & M & -> & G). exists (b :: m), r'. repeat split.
      + constructor; [exact U|exact M].
      + rewrite <- app_assoc in G. exact G.
    - destruct (N.eqb_spec b 32) as [->|]; [injection R as <- <-|discriminate R].
      exists [], r. repeat split; [constructor|exact F].
  Qed.

  Lemma url_inv r l : run (Z StRequestUrl1) l r ->
    exists u r', u <> [] /\ Forall (fun b => visible_byte b = true) u /\ r = u ++ 32 :: r' /\
      run (Z StRequestHttp1) (l ++ map (FByte KUrl) u) r'.
  Proof.
    intros F. step F b r'. destruct (url2_inv _ _ F) as (u & r2 & U & -> & G).
    exists (b :: u), r2. repeat split; [discriminate| |].
    - constructor; assumption.
    - rewrite <- app_assoc in G. exact G.
  Qed.

  Lemma http_inv r l : run (Z StRequestHttp1) l r ->
    exists r', r = bs "HTTP/" ++ r' /\ run (Z StRequestVersionMajor1) l r'.
  Proof.
    intros F. go F b1 r1. go F b2 r2. go F b3 r3. go F b4 r4. go F b5 r5. known. subst.
    exists r5. now split.
  Qed.

  Lemma m14_2 x y : digit x -> digit y -> m14 ((x - 48) * 10 + (y - 48)) = (x - 48) * 10 + (y - 48).
  Proof. unfold digit, byte, m14; intros; apply N.mod_small; change (2 ^ 14) with 16384; lia. Qed.
  Lemma m14_3 x y z : digit x -> digit y -> digit z ->
    m14 (((x - 48) * 10 + (y - 48)) * 10 + (z - 48)) = ((x - 48) * 10 + (y - 48)) * 10 + (z - 48).
  Proof. unfold digit, byte, m14; intros; apply N.mod_small; change (2 ^ 14) with 16384; lia. Qed.

  Ltac digits := repeat match goal with H : is_digit _ = true |- _ => apply digit_inv in H end.

  (* the digits ds are followed by c *)
  Ltac found ds :=
    exists ds; eexists; repeat split; cbn [List.length]; try lia; [repeat (constructor; try assumption)|..];
    rewrite ?decimal1, ?decimal2, ?decimal3.

  Lemma major_inv (s1 s2 s3 s4 s5 : pstate) r l :
    (s1, s2, s3, s4, s5) = (StRequestVersionMajor1, StRequestVersionMajor2, StRequestVersionMajor3, StRequestVersionPeriod, StRequestVersionMinor1) \/
    (s1, s2, s3, s4, s5) = (StResponseVersionMajor1, StResponseVersionMajor2, StResponseVersionMajor3, StResponseVersionPeriod, StResponseVersionMinor1) ->
    run (Z s1) l r ->
    exists ds r', (1 <= List.length ds <= 3)%nat /\ Forall digit ds /\ r = ds ++ 46 :: r' /\ run (A s5 (decimal ds) 0 0) l r'.
  Proof.
    intros [[= -> -> -> -> ->]|[= -> -> -> -> ->]] F.
    all: go F b1 r1; go F b2 r2; known; subst;
      [digits; found [b1]; exact F|].
    all: go F b3 r3; known; subst;
      [digits; found [b1; b2]; rewrite m14_2 in F by assumption; exact F|].
    all: go F b4 r4; known; subst; digits; found [b1; b2; b3];
      rewrite (m14_2 b1 b2), m14_3 in F by assumption; exact F.
  Qed.

  Lemma minor_inv (s1 s2 s3 s4 s5 : pstate) fin maj r l :
    (s1, s2, s3, s4, s5, fin) = (StRequestVersionMinor1, StRequestVersionMinor2, StRequestVersionMinor3, StRequestVersionCr, StInitialEnd, 13) \/
    (s1, s2, s3, s4, s5, fin) = (StResponseVersionMinor1, StResponseVersionMinor2, StResponseVersionMinor3, StResponseVersionSpace, StResponseStatusCode1, 32) ->
    run (A s1 maj 0 0) l r ->
    exists ds r', (1 <= List.length ds <= 3)%nat /\ Forall digit ds /\ r = ds ++ fin :: r' /\
      run (Z s5) (l ++ [FEv (EVersion maj (decimal ds))]) r'.
  Proof.
    intros [[= -> -> -> -> -> ->]|[= -> -> -> -> -> ->]] F.
    all: go F b1 r1; go F b2 r2; known; subst;
      [digits; found [b1]; exact F|].
    all: go F b3 r3; known; subst;
      [digits; found [b1; b2]; rewrite m14_2 in F by assumption; exact F|].
    all: go F b4 r4; known; subst; digits; found [b1; b2; b3];
      rewrite (m14_2 b1 b2), m14_3 in F by assumption; exact F.
  Qed.

  Lemma code_inv r l : run (Z StResponseStatusCode1) l r ->
    exists c r', List.length c = 3%nat /\ Forall digit c /\ r = c ++ 32 :: r' /\
      run (Z StResponseStatus1) (l ++ [FEv (EStatusCode (decimal c))]) r'.
  Proof.
    intros F. go F b1 r1. go F b2 r2. go F b3 r3. go F b4 r4. known. subst. digits.
    exists [b1; b2; b3], r4. repeat split; [repeat (constructor; try assumption)|].
    assert (M : forall x, x < 2 ^ 14 -> m14 x = x) by (intros x; apply N.mod_small).
    change (2 ^ 14) with 16384 in M. rewrite decimal3. unfold digit, byte in *.
    rewrite (M ((b1 - 48) * 100)) in F by lia. rewrite (M (_ + (b2 - 48) * 10)) in F by lia. rewrite M in F by lia.
    replace (((b1 - 48) * 10 + (b2 - 48)) * 10 + (b3 - 48)) with ((b1 - 48) * 100 + (b2 - 48) * 10 + (b3 - 48) * 1) by lia.
    exact F.
  Qed.

  Lemma reason2_inv : forall r l, run (Z StResponseStatus2) l r ->
    exists u r', Forall (fun b : byte => 32 <= b /\ b <> 127) u /\ r = u ++ 13 :: r' /\
      run (Z StInitialEnd) (l ++ map (FByte KStatus) u) r'.
  Proof.
    induction r as [|b r IH]; intros l F; [now apply no_end in F|].
    apply finishes_step in F; [|reflexivity]. destruct F as (b' & r' & ev & a & [= <- <-] & R & F).
    cbn [abyte_raw a_st] in R. unfold a_status2 in R.
    destruct (is_status_byte b) eqn:U; [injection R as <- <-|].
    - destruct (IH _ F) as (m & r' & M & -> & G). exists (b :: m), r'. repeat split.
      + constructor; [now apply status_inv|exact M].
      + rewrite <- app_assoc in G. exact G.
    - destruct (N.eqb_spec b 13) as [->|]; [injection R as <- <-|discriminate R].
      exists [], r. repeat split; [constructor|exact F].
  Qed.

  Lemma reason_inv r l : run (Z StResponseStatus1) l r ->
    exists u r', u <> [] /\ Forall (fun b : byte => 32 <= b /\ b <> 127) u /\ r = u ++ 13 :: r' /\
      run (Z StInitialEnd) (l ++ map (FByte KStatus) u) r'.
  Proof.
    intros F. step F b r'. destruct (reason2_inv _ _ F) as (u & r2 & U & -> & G).
    exists (b :: u), r2. repeat split; [discriminate| |].
    - constructor; [now apply status_inv|assumption].
    - rewrite <- app_assoc in G. exact G.
  Qed.

  Lemma initial_inv r l : run (Z StInitialEnd) l r ->
    exists w e, lines_as w e /\ r = 10 :: w ++ tail /\ L = l ++ [FEv EInitialFinished] ++ e.
  Proof.
    intros F. apply (finishes_eps _ _ _ _ _ _ _ _ [FEv EInitialFinished] (Z StInitialLf)) in F; [|reflexivity].
    go F b r'. known. subst.
    destruct (lines_inv Head bd clen 0 0 0 head_keeps L tail (List.length r') _ _ (le_n _) F) as (w & e & r2 & W & -> & G).
    apply (finishes_eps _ _ _ _ _ _ _ _ [FEv EHeadersFinished] (Z StFinished)) in G; [|reflexivity].
    destruct G as (a & G & _). rewrite aexec_finished in G by reflexivity. injection G as <- _ ->.
    exists w, (e ++ [FEv EHeadersFinished]). repeat split; [exact W|]. now rewrite <- !app_assoc.
  Qed.

  Lemma head_inv r : run (Z StStripDetect) [] r -> exists w, r = w ++ tail /\ head_as w L.
  Proof.
    intros F. destruct (start_inv_head _ _ F) as (w & B & [(m & r1 & M1 & M2 & -> & G)|(r1 & -> & G)]).
    - destruct (url_inv _ _ G) as (u & r2 & U1 & U2 & -> & G2).
      destruct (http_inv _ _ G2) as (r3 & -> & G3).
      destruct (major_inv _ StRequestVersionMajor2 StRequestVersionMajor3 StRequestVersionPeriod StRequestVersionMinor1 _ _ (or_introl eq_refl) G3) as (maj & r4 & J1 & J2 & -> & G4).
      destruct (minor_inv _ StRequestVersionMinor2 StRequestVersionMinor3 StRequestVersionCr StInitialEnd 13 _ _ _ (or_introl eq_refl) G4) as (min & r5 & I1 & I2 & -> & G5).
      destruct (initial_inv _ _ G5) as (x & e & X & -> & ->).
      exists (w ++ m ++ [32] ++ u ++ [32] ++ render_version (maj, min) ++ crlf ++ x). split.
      + unfold render_version, crlf. cbn [fst snd]. rewrite <- !app_assoc. cbn [app]. rewrite <- ?app_assoc. cbn [app]. reflexivity.
      + rewrite <- !app_assoc. cbn [app]. apply (head_request w m u (maj, min)); try assumption. now repeat split.
    - destruct (major_inv _ StResponseVersionMajor2 StResponseVersionMajor3 StResponseVersionPeriod StResponseVersionMinor1 _ _ (or_intror eq_refl) G) as (maj & r4 & J1 & J2 & -> & G4).
      destruct (minor_inv _ StResponseVersionMinor2 StResponseVersionMinor3 StResponseVersionSpace StResponseStatusCode1 32 _ _ _ (or_intror eq_refl) G4) as (min & r5 & I1 & I2 & -> & G5).
      destruct (code_inv _ _ G5) as (c & r6 & C1 & C2 & -> & G6).
      destruct (reason_inv _ _ G6) as (u & r7 & U1 & U2 & -> & G7).
      destruct (initial_inv _ _ G7) as (x & e & X & -> & ->).
      exists (w ++ render_version (maj, min) ++ [32] ++ c ++ [32] ++ u ++ crlf ++ x). split.
      + unfold render_version, crlf. cbn [fst snd]. rewrite <- !app_assoc. cbn [app]. rewrite <- ?app_assoc. cbn [app]. reflexivity.
      + rewrite <- !app_assoc. cbn [app]. apply (head_response w (maj, min) c u); try assumption. now repeat split.
  Qed.
End Heads.

Section HeadRun.
  Variables (bd : option (list byte)) (clen : list fevent -> option N).
  Notation run := (aexec Head bd clen).

  Lemma head_lines x e l r : lines_as x e ->
    run (A StInitialEnd 0 0 0) l (10 :: x ++ r) = ADone (l ++ [FEv EInitialFinished] ++ e) (A StFinished 0 0 0) r.
  Proof.
    intros X. destruct (lines_run Head bd clen 0 0 0 head_keeps _ _ X) as (e' & -> & R).
    rewrite (aexec_eps _ _ _ (A StInitialEnd 0 0 0) _ _ [FEv EInitialFinished] (A StInitialLf 0 0 0)) by reflexivity.
    rewrite (hkeep bd clen StInitialLf 10 [] StHeaderCr2) by reflexivity. rewrite R.
    rewrite (aexec_eps _ _ _ (A StHeaderEnd 0 0 0) _ _ [FEv EHeadersFinished] (A StFinished 0 0 0)) by reflexivity.
    rewrite aexec_finished by reflexivity. f_equal. now rewrite app_nil_r, <- !app_assoc.
  Qed.

  Lemma head_run w L r : head_as w L -> run (A StStripDetect 0 0 0) [] (w ++ r) = ADone L (A StFinished 0 0 0) r.
  Proof.
    intros [w0 m u v x e B M1 M2 U1 U2 (V1 & V2 & V3 & V4) X|w0 v c u x e B (V1 & V2 & V3 & V4) C1 C2 U1 U2 X].
    - unfold render_version, seen_version, crlf.
      rewrite <- !app_assoc. cbn [app]. rewrite head_blank by assumption.
      rewrite method_bytes, url_bytes by assumption.
      change (bs "HTTP/") with [72; 84; 84; 80; 47]. cbn [app].
      rewrite (hkeep bd clen StRequestHttp1 72 [] StRequestHttp2) by reflexivity.
      rewrite (hkeep bd clen StRequestHttp2 84 [] StRequestHttp3) by reflexivity.
      rewrite (hkeep bd clen StRequestHttp3 84 [] StRequestHttp4) by reflexivity.
      rewrite (hkeep bd clen StRequestHttp4 80 [] StRequestHttp5) by reflexivity.
      rewrite (hkeep bd clen StRequestHttp5 47 [] StRequestVersionMajor1) by reflexivity.
      rewrite <- !app_assoc. cbn [app].
      rewrite (version_digits bd clen _ _ 13 _ StRequestVersionMajor2 StRequestVersionMajor3 StRequestVersionPeriod StRequestVersionMinor1 StRequestVersionMinor2 StRequestVersionMinor3 StRequestVersionCr StInitialEnd) by (assumption || (left; repeat split)).
      rewrite (head_lines _ _ _ _ X). f_equal; rewrite ?app_nil_r, <- ?app_assoc; reflexivity.
    - unfold render_version, seen_version, crlf.
      rewrite <- !app_assoc. cbn [app]. rewrite head_blank by assumption.
      change (bs "HTTP/") with [72; 84; 84; 80; 47]. cbn [app].
      rewrite (hkeep bd clen StStripDetect 72 [] StDetect2) by reflexivity.
      rewrite (hkeep bd clen StDetect2 84 [] StDetect3) by reflexivity.
      rewrite (hkeep bd clen StDetect3 84 [] StDetect4) by reflexivity.
      rewrite (hkeep bd clen StDetect4 80 [] StDetect5) by reflexivity.
      rewrite (hkeep bd clen StDetect5 47 [] StResponseVersionMajor1) by reflexivity.
      rewrite <- !app_assoc. cbn [app].
      rewrite (version_digits bd clen _ _ 32 _ StResponseVersionMajor2 StResponseVersionMajor3 StResponseVersionPeriod StResponseVersionMinor1 StResponseVersionMinor2 StResponseVersionMinor3 StResponseVersionSpace StResponseStatusCode1) by (assumption || (right; repeat split)).
      rewrite <- ?app_assoc. cbn [app].
      rewrite code_bytes, reason_bytes by assumption.
      rewrite (head_lines _ _ _ _ X). f_equal; rewrite ?app_nil_r, <- ?app_assoc; reflexivity.
  Qed.
End HeadRun.

(* ------------------------------------------------------------------ *)
(* From the automaton to the client                                     *)
(* ------------------------------------------------------------------ *)

(* What feed says of a stream is what the automaton says of it. *)
Lemma feed_iff h clen p segs L tail :
  (forall l, h_clen h l = clen (flat l)) ->
  rinv2 p (hd [] segs) (List.concat (tl segs)) -> segs <> [] -> state_fn p <> StDetect1 ->
  (exists p' log, feed h p segs = (p', log, tail, OFinished) /\ flat log = L) <->
  finishes (rsem clen p [] (List.concat segs)) L tail.
Proof.
  intros Hc I N D. split.
  - intros (p' & log & E & <-). unfold feed in E.
    destruct (client_sim h clen Hc _ _ _ _ _ _ _ _ I (or_intror N) (fun X => match D X with end) E) as [P _].
    cbn [client_post flat flat_map] in P. destruct P as [P S]. exists (alpha p'). split; [exact P|].
    now rewrite alpha_st.
  - intros (a & R & F). destruct (feed_exact h clen p segs L a tail Hc I N D R F) as (p' & log & X & Y & _). eauto.
Qed.

Lemma feed_nothing h p p' log tail : feed h p [] <> (p', log, tail, OFinished).
Proof. discriminate. Qed.

Lemma head_exact h q segs tail L :
  hok (strip (List.concat segs)) = true \/ (9 <= List.length (strip (hd [] segs)))%nat ->
  (exists p' log, feed h (init_head q) segs = (p', log, tail, OFinished) /\ flat log = L) <->
  (exists w, List.concat segs = w ++ tail /\ head_as w L).
Proof.
  intros Hh. destruct (list_eq_dec (list_eq_dec N.eq_dec) segs []) as [->|NE].
  { split; [intros (p' & log & X & _); now apply feed_nothing in X|].
    intros (w & X & Y). symmetry in X. apply app_eq_nil in X. destruct X as [-> ->].
    pose proof (head_run None (fun _ => None) [] L [] Y) as Z. discriminate Z. }
  unfold feed. rewrite (client_no_clen h) by (reflexivity || discriminate).
  pose proof (feed_iff (no_clen h) (fun _ => None) (init_head q) segs L tail) as X. unfold feed in X. rewrite X; clear X;
    [|reflexivity| |assumption|discriminate].
  - split.
    + apply (head_inv None (fun _ => None)).
    + intros (w & -> & H). eexists. split; [apply (head_run None (fun _ => None)); exact H|reflexivity].
  - constructor; try reflexivity; try discriminate.
    destruct Hh as [Hh|Hh]; [left|right; left; split; [reflexivity|assumption]].
    rewrite <- concat_hd. exact Hh.
Qed.
