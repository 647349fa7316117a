(* The automaton of Http1Sem.v understands every stream as the readers of
   Http1Reader.v do: header lines and heads. *)

From Coq Require Import NArith List Bool Arith String Lia.
From Verif Require Import Bytes ByteStream Http1Model Http1Base Http1Wp Http1Term Http1Spec Http1Sem
  Http1Sim Http1Step Http1Misc Http1Run Http1Client Http1Api Http1Protocol Http1Data Http1Wire
  Http1Round Http1Round2 Http1Accept Http1Parse Http1Parse2 Http1Reader.
Import ListNotations.
Local Open Scope N_scope.

(* ------------------------------------------------------------------ *)
(* Byte classes                                                         *)
(* ------------------------------------------------------------------ *)

Lemma lookup_is t (P : byte -> bool) :
  List.length t = 255%nat ->
  forallb (fun i => match lookup t (N.of_nat i) with Some x => Bool.eqb x (P (N.of_nat i)) | None => false end)
          (seq 0 255) = true ->
  forall b, lookup t b = if 255 <=? b then None else Some (P b).
Proof.
  intros Len H b. destruct (N.leb_spec 255 b) as [G|G].
  - unfold lookup. apply nth_error_None. lia.
  - rewrite forallb_forall in H. specialize (H (N.to_nat b)). rewrite N2Nat.id in H.
    destruct (lookup t b) as [x|]; [|exfalso; assert (false = true) by (apply H, in_seq; lia); discriminate].
    f_equal. apply eqb_prop. apply H, in_seq. lia.
Qed.

Lemma token_eq b : is_token b = if 255 <=? b then None else Some (tchar b).
Proof. apply lookup_is; vm_compute; reflexivity. Qed.
Lemma field_eq b : is_header_field b = if 255 <=? b then None else Some (field_byte b && negb (b =? 34)).
Proof. apply (lookup_is _ (fun b => field_byte b && negb (b =? 34))); vm_compute; reflexivity. Qed.
Lemma quoted_eq b :
  is_quoted_header_field b = if 255 <=? b then None else Some (field_byte b && negb (b =? 34) && negb (b =? 92)).
Proof. apply (lookup_is _ (fun b => field_byte b && negb (b =? 34) && negb (b =? 92))); vm_compute; reflexivity. Qed.

Lemma escapable_eq b : is_escapable b = (32 <=? b) && (b <=? 122).
Proof.
  unfold is_escapable. destruct (N.ltb_spec 31 b), (N.ltb_spec b 123), (N.leb_spec 32 b), (N.leb_spec b 122); try reflexivity; lia.
Qed.
Lemma reason_eq b : is_status_byte b = reasonb b.
Proof. unfold is_status_byte, reasonb. f_equal. destruct (N.ltb_spec 31 b), (N.leb_spec 32 b); try reflexivity; lia. Qed.
Lemma upper_eq b : is_upper b = upperb b.
Proof.
  unfold is_upper, upperb. destruct (N.ltb_spec 64 b), (N.ltb_spec b 91), (N.leb_spec 65 b), (N.leb_spec b 90); try reflexivity; lia.
Qed.
Lemma visible_eq b : is_visible_7bit b = visible_byte b. Proof. reflexivity. Qed.
Lemma digit_eq b : is_digit b = digitb b. Proof. reflexivity. Qed.
Lemma hex_eq b : is_hex b = hexb b. Proof. reflexivity. Qed.

Lemma hexb_is b : hexb b = true -> hexdigit b.
Proof. apply hex_inv. Qed.
Lemma hex_digit_eq b : hex_digit b = if hexb b then Some (hexval b) else None.
Proof.
  destruct (hexb b) eqn:H; [now apply hexdigit_digit, hexb_is|].
  unfold hexb in H. apply orb_false_iff in H. destruct H as [H H3]. apply orb_false_iff in H. destruct H as [H1 H2].
  unfold hex_digit. change (is_digit b) with (digitb b). rewrite H1.
  destruct (N.ltb_spec 64 b), (N.ltb_spec b 71), (N.leb_spec 65 b), (N.leb_spec b 70); try discriminate H2; try lia; cbn [andb];
    destruct (N.ltb_spec 96 b), (N.ltb_spec b 103), (N.leb_spec 97 b), (N.leb_spec b 102); try discriminate H3; try lia; reflexivity.
Qed.

(* ------------------------------------------------------------------ *)
(* Automaton and reader                                                 *)
(* ------------------------------------------------------------------ *)

Definition shows (x : aout) (r : list fevent * reading) : Prop :=
  match snd r with
  | Complete y => exists a, x = ADone (fst r) a y /\ a_st a = StFinished
  | Partial at_ => exists a, x = ADone (fst r) a [] /\ needs_byte (a_st a) = true /\ a_st a = at_
  | Wrong e => exists y, x = AFail (fst r) e y
  | Crash => x = AFlt (fst r)
  end.

(* The automaton waits for a byte in state at_. *)
Definition rests (a : astate) (at_ : pstate) : Prop := (a_st a, needs_byte at_) = (at_, true).
Lemma rests_at a at_ : rests a at_ -> a_st a = at_.
Proof. unfold rests. now intros [= E _]. Qed.
Lemma rests_needs a at_ : rests a at_ -> needs_byte (a_st a) = true.
Proof. unfold rests. intros E. injection E as -> ->. reflexivity. Qed.

Section Reads.
  Variables (t : ptype) (bd : option (list byte)) (clen : list fevent -> option N).

  (* k is the meaning of inputs of at most n bytes in state a. *)
  Definition reads (n : nat) (a : astate) (k : reader) : Prop :=
    forall l s, (List.length s <= n)%nat -> shows (aexec t bd clen a l s) (k l s).

  (* The same after the effect r of one byte. *)
  Definition does (n : nat) (r : ares) (k : reader) : Prop :=
    forall l s, (List.length s <= n)%nat ->
      shows (match r with
             | AGo ev a => aexec t bd clen (nrm t a) (l ++ ev) s
             | AError ev e => AFail (l ++ ev) e s
             | APanic => AFlt l
             end) (k l s).

  Lemma reads_le m n a k : (m <= n)%nat -> reads n a k -> reads m a k.
  Proof. intros M R l s S. apply R. lia. Qed.

  Lemma does_go n a k : reads n (nrm t a) k -> does n (AGo [] a) k.
  Proof. intros R l s S. cbn. rewrite app_nil_r. now apply R. Qed.
  Lemma does_say n ev a k : reads n (nrm t a) k -> does n (AGo ev a) (say ev k).
  Proof. intros R l s S. cbn. now apply R. Qed.
  Lemma does_wrong n e : does n (AError [] e) (wrong e).
  Proof. intros l s S. cbn. exists s. now rewrite app_nil_r. Qed.
  Lemma does_crash n : does n APanic crash.
  Proof. intros l s S. reflexivity. Qed.

  Lemma shows_nil {at_} a l : rests a at_ -> shows (aexec t bd clen a l []) (l, Partial at_).
  Proof. intros N. cbn. exists a. rewrite aexec_nil by now apply (rests_needs a at_). repeat split; [now apply (rests_needs a at_)|now apply rests_at]. Qed.

  (* Any reader that decides by the first byte. *)
  Lemma reads_byte {at_} n a (k : reader) : rests a at_ ->
    (forall l, k l [] = (l, Partial at_)) ->
    (forall b, does n (abyte_raw bd a b) (fun l s => k l (b :: s))) -> reads (S n) a k.
  Proof.
    intros N K D l [|b s] L.
    - rewrite K. now apply shows_nil.
    - rewrite aexec_byte by exact (rests_needs _ _ N). unfold abyte. cbn [List.length] in L. specialize (D b l s ltac:(lia)).
      destruct (abyte_raw bd a b); exact D.
  Qed.

  Lemma reads_next {at_} n a f : rests a at_ ->
    (forall b, does (pred n) (abyte_raw bd a b) (f b)) -> reads n a (next at_ f).
  Proof.
    intros N D. apply (reads_le _ (S (pred n))); [lia|]. eapply reads_byte; [exact N|reflexivity|]. intros b. exact (D b).
  Qed.

  Lemma reads_eps n a ev a' k : (forall l, aeps t clen l a = Some (ev, a')) -> reads n a' k -> reads n a (say ev k).
  Proof. intros E R l s L. rewrite (aexec_eps _ _ _ _ _ _ _ _ (E l)). now apply R. Qed.

  Lemma reads_complete n a : a_st a = StFinished -> reads n a complete.
  Proof. intros E l s L. exists a. split; [now apply aexec_finished|exact E]. Qed.

  Lemma reads_literal1 {at_} n a c s err k : rests a at_ ->
    (forall b, abyte_raw bd a b = a_expect a c s err b) ->
    reads (pred n) (nrm t (st a s)) k -> reads n a (expect at_ c err k).
  Proof.
    intros N E R. apply reads_next; [exact N|]. intros b. rewrite E. unfold a_expect.
    destruct (b =? c); [now apply does_go|apply does_wrong].
  Qed.

  (* A state that takes all bytes satisfying p. *)
  Lemma reads_many {at_} a p show k : rests a at_ -> nrm t a = a ->
    (forall b, p b = true -> abyte_raw bd a b = AGo (show b) a) ->
    forall n, (forall l b s, p b = false -> (List.length s < n)%nat -> shows (aexec t bd clen a l (b :: s)) (k l (b :: s))) ->
    reads n a (many at_ p show k).
  Proof.
    intros N Z P n K l s. revert l. induction s as [|b s IH]; intros l L; cbn [many].
    - now apply shows_nil.
    - cbn [List.length] in L. destruct (p b) eqn:E.
      + rewrite aexec_byte by exact (rests_needs _ _ N). unfold abyte. rewrite (P b E), Z. apply IH. lia.
      + apply K; [exact E|lia].
  Qed.

  (* The same when k decides by the next byte. *)
  Lemma reads_many_next {at_} a p show f : rests a at_ -> nrm t a = a ->
    (forall b, p b = true -> abyte_raw bd a b = AGo (show b) a) ->
    forall n, (forall b, p b = false -> does (pred n) (abyte_raw bd a b) (f b)) ->
    reads n a (many at_ p show (next at_ f)).
  Proof.
    intros N Z P n D. apply (reads_many a); auto. intros l b s E L.
    rewrite aexec_byte by exact (rests_needs _ _ N). unfold abyte. specialize (D b E l s ltac:(lia)). cbn [next].
    destruct (abyte_raw bd a b); exact D.
  Qed.

  (* A loop entered in one of several states. *)
  Lemma reads_repeating_all {at_} (P : astate -> Prop) f : (forall a, P a -> rests a at_) ->
    (forall again l, f again l [] = (l, Partial at_)) ->
    (forall n again, (forall a, P a -> reads n a again) -> forall a, P a -> reads (S n) a (f again)) ->
    forall n a, P a -> reads n a (repeating f).
  Proof.
    intros N Z F.
    assert (H : forall j m, (m < j)%nat -> forall a, P a -> reads m a (rounds j f)).
    { induction j as [|j IH]; intros m M a Pa; [lia|]. cbn [rounds]. destruct m as [|m].
      - intros l [|b s] L; [|cbn in L; lia]. rewrite Z. now apply shows_nil, N.
      - apply F; [|exact Pa]. apply IH. lia. }
    intros n a Pa l s L. unfold repeating. apply (H (S (List.length s)) (List.length s)); auto; lia.
  Qed.

  Lemma reads_repeating {at_} a f : rests a at_ -> (forall again l, f again l [] = (l, Partial at_)) ->
    (forall n again, reads n a again -> reads (S n) a (f again)) -> forall n, reads n a (repeating f).
  Proof.
    intros N Z F n. apply (@reads_repeating_all at_ (eq a)); try assumption; try reflexivity.
    - now intros ? <-.
    - intros m again R ? <-. now apply F, R.
  Qed.

  (* The same for inputs of bounded length. *)
  Lemma reads_repeating_upto {at_} a f n0 : rests a at_ -> (forall again l, f again l [] = (l, Partial at_)) ->
    (forall n again, (S n <= n0)%nat -> reads n a again -> reads (S n) a (f again)) -> reads n0 a (repeating f).
  Proof.
    intros N Z F.
    assert (H : forall j m, (m < j)%nat -> (m <= n0)%nat -> reads m a (rounds j f)).
    { induction j as [|j IH]; intros m M M0; [lia|]. cbn [rounds]. destruct m as [|m].
      - intros l [|b s] L; [|cbn in L; lia]. rewrite Z. now apply shows_nil.
      - apply F; [exact M0|]. apply IH; lia. }
    intros l s L. unfold repeating. apply (H (S (List.length s)) (List.length s)); lia.
  Qed.

  (* A state that looks at the first byte and goes on as another one. *)
  Lemma reads_check_upto {at_} n a a' (p : byte -> bool) (err : byte -> perror) k :
    rests a at_ -> needs_byte (a_st a') = true ->
    (forall b, abyte_raw bd a b = if p b then abyte_raw bd a' b else AErr (err b)) ->
    reads n a' k -> reads n a (check at_ p err k).
  Proof.
    intros N N' E K l [|b s] L; [now apply shows_nil|]. cbn [check].
    specialize (K l (b :: s) L). rewrite aexec_byte in K |- * by (exact (rests_needs _ _ N) || assumption). unfold abyte in *. rewrite E.
    destruct (p b); [exact K|]. cbn. rewrite app_nil_r. now exists s.
  Qed.

  (* The same after bytes that are skipped. *)
  Lemma reads_skip_check {at_} n a a' (p q : byte -> bool) (err : byte -> perror) k :
    rests a at_ -> needs_byte (a_st a') = true -> nrm t a = a ->
    (forall b, abyte_raw bd a b = if q b then AGo [] a else if p b then abyte_raw bd a' b else AErr (err b)) ->
    reads n a' k -> reads n a (many at_ q hidden (check at_ p err k)).
  Proof.
    intros N N' Z E K. apply (reads_many a); auto.
    - intros b Q. now rewrite E, Q.
    - intros l b s Q L. cbn [check]. specialize (K l (b :: s) ltac:(cbn [List.length]; lia)).
      rewrite aexec_byte in K |- * by (exact (rests_needs _ _ N) || assumption). unfold abyte in *. rewrite E, Q.
      destruct (p b); [exact K|]. cbn. rewrite app_nil_r. now exists s.
  Qed.
End Reads.

Ltac classes := rewrite ?token_eq, ?field_eq, ?quoted_eq, ?escapable_eq, ?reason_eq, ?upper_eq, ?visible_eq, ?digit_eq, ?hex_eq, ?hex_digit_eq.

(* ------------------------------------------------------------------ *)
(* Header lines                                                         *)
(* ------------------------------------------------------------------ *)

Section Lines.
  Variables (t : ptype) (bd : option (list byte)) (clen : list fevent -> option N) (lo up len : N).
  Hypothesis Z : forall s, uses_lo s = false -> uses_up s = false -> nrm t (A s lo up len) = A s lo up len.
  Notation reads := (reads t bd clen).
  Notation does := (does t bd clen).
  Notation H s := (A s lo up len).

  Definition text_state (m : qmode) : pstate :=
    match m with Plain => StHeaderValue | Quoted => StHeaderQuotedValue | Escaped => StHeaderEscapedValue end.

  Lemma text_needs m : needs_byte (text_state m) = true. Proof. now destruct m. Qed.
  Lemma text_nrm m : nrm t (H (text_state m)) = H (text_state m). Proof. destruct m; now apply Z. Qed.

  Lemma reads_lf n k : reads (pred n) (H StHeaderCr2) k -> reads n (H StHeaderLf1) (expect StHeaderLf1 10 ErCrlfSequence k).
  Proof.
    intros R. apply (reads_literal1 _ _ _ _ _ _ StHeaderCr2); [reflexivity|reflexivity|]. unfold st; cbn [a_st a_lo a_up a_len]. rewrite Z by reflexivity. exact R.
  Qed.

  Lemma reads_text k : forall n m, reads (pred n) (H StHeaderCr2) k -> reads n (H (text_state m)) (text m k).
  Proof.
    intros n m R l s. revert m l. induction s as [|b s IH]; intros m l L; cbn [text].
    - apply shows_nil. now destruct m.
    - cbn [List.length] in L. rewrite aexec_byte by apply text_needs. unfold abyte.
      assert (G : forall m', shows (aexec t bd clen (nrm t (H (text_state m'))) (l ++ [FByte KHeaderValue b]) s)
                                   (text m' k (l ++ [FByte KHeaderValue b]) s)).
      { intros m'. rewrite text_nrm. apply IH. lia. }
      destruct m; cbn [text_state abyte_raw a_st].
      + unfold a_value, by_table. classes. destruct (N.eqb_spec b 34) as [->|N34]; cbn [negb].
        { exact (G Quoted). }
        rewrite andb_true_r. destruct (field_byte b) eqn:F.
        { unfold field_byte in F. apply andb_true_iff in F. destruct F as [_ F]. apply N.ltb_lt in F.
          destruct (N.leb_spec 255 b); [lia|]. exact (G Plain). }
        destruct (N.eqb_spec b 13) as [->|N13].
        { change (255 <=? 13) with false. cbv iota. unfold st; cbn [a_st a_lo a_up a_len]. rewrite Z, app_nil_r by reflexivity.
          apply (reads_lf (pred n)); [|lia]. apply (reads_le _ _ _ _ (pred n)); [lia|exact R]. }
        destruct (N.leb_spec 255 b); cbn; [reflexivity|rewrite app_nil_r; eexists; reflexivity].
      + unfold a_quoted, by_table. classes. destruct (N.eqb_spec b 34) as [->|N34]; cbn [negb].
        { exact (G Plain). }
        destruct (N.eqb_spec b 92) as [->|N92]; cbn [negb].
        { exact (G Escaped). }
        rewrite !andb_true_r. destruct (field_byte b) eqn:F.
        { unfold field_byte in F. apply andb_true_iff in F. destruct F as [_ F]. apply N.ltb_lt in F.
          destruct (N.leb_spec 255 b); [lia|]. exact (G Quoted). }
        destruct (N.leb_spec 255 b); cbn; [reflexivity|rewrite app_nil_r; eexists; reflexivity].
      + unfold a_escaped. classes. destruct ((32 <=? b) && (b <=? 122)).
        { exact (G Quoted). }
        cbn. rewrite app_nil_r; eexists; reflexivity.
  Qed.

  Lemma small_tchar b : tchar b = true -> (255 <=? b) = false.
  Proof. intros E. apply tchar_visible in E. unfold is_visible_7bit in E. apply andb_true_iff in E. destruct E as [_ E].
    apply N.leb_le in E. apply N.leb_gt. lia. Qed.

  Lemma name_byte b : tchar b = true ->
    a_lower_name (H StLowerHeaderName) b = AGo (lowered KHeaderName b) (H StLowerHeaderName).
  Proof.
    intros E. unfold a_lower_name, by_table. rewrite token_eq, (small_tchar _ E), E. unfold lowered. rewrite <- tchar_lower.
    now destruct (is_upper b).
  Qed.

  Lemma reads_value n k : reads (pred n) (H StHeaderCr2) k ->
    reads n (H StStripHeaderValue) (many StStripHeaderValue padb hidden (check StStripHeaderValue visible_byte ErHeaderValue (text Plain k))).
  Proof.
    intros R. apply reads_many; [reflexivity|now apply Z| |].
    - intros b P. cbn [abyte_raw a_st]. unfold a_strip. unfold padb in P. rewrite P. reflexivity.
    - intros l b s P L. cbn [check].
      destruct (visible_byte b) eqn:V.
      + pose proof (reads_text k n Plain R l (b :: s) ltac:(cbn [List.length]; lia)) as T.
        rewrite aexec_byte in T |- * by reflexivity. unfold abyte in *. cbn [text_state abyte_raw a_st] in *.
        unfold a_strip. unfold padb in P. rewrite P. change (is_visible_7bit b) with (visible_byte b). rewrite V.
        exact T.
      + rewrite aexec_byte by reflexivity. unfold abyte. cbn [abyte_raw a_st]. unfold a_strip. unfold padb in P. rewrite P.
        change (is_visible_7bit b) with (visible_byte b). rewrite V. cbn. rewrite app_nil_r; eexists; reflexivity.
  Qed.

  Lemma reads_name n k : reads (pred n) (H StStripHeaderValue) k -> reads n (H StLowerHeaderName) (header_name k).
  Proof.
    intros R. apply reads_many_next; [reflexivity|now apply Z| |].
    - intros b E. cbn [abyte_raw a_st]. now apply name_byte.
    - intros b E. cbn [abyte_raw a_st]. unfold a_lower_name, by_table. rewrite token_eq, E.
      destruct (N.eqb_spec b 58) as [->|N58].
      + change (255 <=? 58) with false. cbv iota. apply does_go. unfold st; cbn [a_st a_lo a_up a_len]. rewrite Z by reflexivity. exact R.
      + destruct (255 <=? b); [apply does_crash|apply does_wrong].
  Qed.

  Lemma first_name_same b : visible_byte b = true -> a_first_name (H StHeaderCr2) b = a_lower_name (H StLowerHeaderName) b.
  Proof. intros V. unfold a_first_name. change (is_visible_7bit b) with (visible_byte b). now rewrite V. Qed.

  Lemma reads_lines_upto n0 k : reads (pred n0) (H StHeaderEnd) (say [FEv EHeadersFinished] k) ->
    reads n0 (H StHeaderCr2) (lines k).
  Proof.
    intros K. apply (reads_repeating_upto _ _ _ (at_ := StHeaderCr2)); [reflexivity|reflexivity|]. intros n again B R.
    apply (reads_byte _ _ _ (at_ := StHeaderCr2)); [reflexivity|reflexivity|]. intros b. cbn [abyte_raw a_st]. cbv zeta.
    destruct (N.eqb_spec b 13) as [->|N13].
    { apply does_go. unfold st; cbn [a_st a_lo a_up a_len]. rewrite Z by reflexivity. apply (reads_literal1 _ _ _ _ _ _ StHeaderEnd); [reflexivity|reflexivity|].
      unfold st; cbn [a_st a_lo a_up a_len]. rewrite Z by reflexivity. apply (reads_le _ _ _ _ (pred n0)); [lia|exact K]. }
    unfold a_check_name. change ((b =? 32) || (b =? 9)) with (padb b). destruct (padb b) eqn:P.
    { apply does_go. unfold st; cbn [a_st a_lo a_up a_len]. rewrite Z by reflexivity. apply (reads_text again n Plain).
      apply (reads_le _ _ _ _ n); [lia|exact R]. }
    cbn [check]. destruct (visible_byte b) eqn:V.
    - intros l s L. rewrite first_name_same by exact V.
      assert (X : reads (S n) (H StLowerHeaderName)
                (header_name (many StStripHeaderValue padb hidden (check StStripHeaderValue visible_byte ErHeaderValue (text Plain again))))).
      { apply reads_name. apply reads_value. apply (reads_le _ _ _ _ n); [cbn; lia|exact R]. }
      specialize (X l (b :: s) ltac:(cbn [List.length]; lia)). rewrite aexec_byte in X by reflexivity.
      unfold abyte in X. cbn [abyte_raw a_st] in X. destruct (a_lower_name _ b); exact X.
    - unfold a_first_name. change (is_visible_7bit b) with (visible_byte b). rewrite V. exact (does_wrong _ _ _ _ _).
  Qed.

  Lemma reads_lines k : (forall n, reads n (H StHeaderEnd) (say [FEv EHeadersFinished] k)) ->
    forall n, reads n (H StHeaderCr2) (lines k).
  Proof. intros K n. apply reads_lines_upto, K. Qed.
End Lines.

(* ------------------------------------------------------------------ *)
(* Heads                                                                *)
(* ------------------------------------------------------------------ *)

Section Heads.
  Variables (bd : option (list byte)) (clen : list fevent -> option N).
  Notation does := (does Head bd clen).
  Notation Z s := (A s 0 0 0).

  (* Inputs of any length. *)
  Definition always (a : astate) (k : reader) : Prop := forall n, reads Head bd clen n a k.

  Lemma always_next {at_} a f : rests a at_ ->
    (forall b n, does n (abyte_raw bd a b) (f b)) -> always a (next at_ f).
  Proof. intros N D n. apply reads_next; [exact N|]. intros b. apply D. Qed.

  Lemma always_go a k : always (nrm Head a) k -> forall n, does n (AGo [] a) k.
  Proof. intros K n. apply does_go, K. Qed.

  Lemma always_literal1 {at_} a c s err k : rests a at_ ->
    (forall b, abyte_raw bd a b = a_expect a c s err b) ->
    always (nrm Head (st a s)) k -> always a (expect at_ c err k).
  Proof. intros N E K n. now apply (reads_literal1 _ _ _ _ _ _ s). Qed.

  Lemma reads_fields : always (Z StInitialEnd) fields.
  Proof.
    intros n. apply reads_eps with (a' := Z StInitialLf); [reflexivity|].
    apply (reads_literal1 _ _ _ _ _ _ StHeaderCr2); [reflexivity|reflexivity|].
    apply (reads_lines Head bd clen 0 0 0 head_keeps). intros m.
    apply reads_eps with (a' := Z StFinished); [reflexivity|]. now apply reads_complete.
  Qed.

  Lemma digitb_is b : digitb b = true -> digit b.
  Proof. apply digit_inv. Qed.

  Lemma m14_small x : x < 16384 -> m14 x = x.
  Proof. apply N.mod_small. Qed.

  Ltac byte_case :=
    cbn [abyte_raw a_st]; unfold a_major1, a_major23, a_minor1, a_minor23, a_version_end, a_expect, a_code; classes.
  Ltac reduce := unfold st, st_lo, st_up; cbn [nrm a_st a_lo a_up a_len uses_lo uses_up].

  Lemma reads_major (s1 s2 s3 s4 s5 : pstate) k :
    (s1, s2, s3, s4, s5) = (StRequestVersionMajor1, StRequestVersionMajor2, StRequestVersionMajor3, StRequestVersionPeriod, StRequestVersionMinor1) \/
    (s1, s2, s3, s4, s5) = (StResponseVersionMajor1, StResponseVersionMajor2, StResponseVersionMajor3, StResponseVersionPeriod, StResponseVersionMinor1) ->
    (forall v, always (A s5 v 0 0) (k v)) -> always (Z s1) (number s1 s2 s3 s4 46 ErVersion k).
  Proof.
    intros S K. unfold number. cbn [digits].
    destruct S as [[= -> -> -> -> ->]|[= -> -> -> -> ->]].
    all: apply always_next; [reflexivity|]; intros b1 n1; byte_case; destruct (digitb b1) eqn:D1; [|apply does_wrong];
      apply always_go; reduce; apply digitb_is in D1; unfold digit, byte in D1.
    all: apply always_next; [reflexivity|]; intros b2 n2; byte_case; destruct (b2 =? 46); [apply always_go, K|];
      destruct (digitb b2) eqn:D2; [|apply does_wrong];
      apply always_go; reduce; apply digitb_is in D2; unfold digit, byte in D2.
    all: apply always_next; [reflexivity|]; intros b3 n3; byte_case; rewrite m14_small by lia;
      replace ((b1 - 48) * 10 + (b2 - 48)) with (10 * (b1 - 48) + (b2 - 48)) by lia;
      destruct (b3 =? 46); [apply always_go, K|];
      destruct (digitb b3) eqn:D3; [|apply does_wrong];
      apply always_go; reduce; apply digitb_is in D3; unfold digit, byte in D3.
    all: rewrite m14_small by lia;
      replace ((10 * (b1 - 48) + (b2 - 48)) * 10 + (b3 - 48)) with (10 * (10 * (b1 - 48) + (b2 - 48)) + (b3 - 48)) by lia;
      apply always_next; [reflexivity|]; intros b4 n4; byte_case;
      destruct (b4 =? 46); [apply always_go, K|apply does_wrong].
  Qed.

  Lemma reads_minor (s1 s2 s3 s4 s5 : pstate) fin v k :
    (s1, s2, s3, s4, s5, fin) = (StRequestVersionMinor1, StRequestVersionMinor2, StRequestVersionMinor3, StRequestVersionCr, StInitialEnd, 13) \/
    (s1, s2, s3, s4, s5, fin) = (StResponseVersionMinor1, StResponseVersionMinor2, StResponseVersionMinor3, StResponseVersionSpace, StResponseStatusCode1, 32) ->
    always (Z s5) k -> always (A s1 v 0 0) (number s1 s2 s3 s4 fin ErVersion (fun minor => say [FEv (EVersion v minor)] k)).
  Proof.
    intros S K. unfold number. cbn [digits].
    assert (G : forall n w, does n (AGo [FEv (EVersion v w)] (A s5 v w 0)) (say [FEv (EVersion v w)] k)).
    { intros n w. apply does_say. destruct S as [[= -> -> -> -> -> ->]|[= -> -> -> -> -> ->]]; apply K. }
    destruct S as [[= -> -> -> -> -> ->]|[= -> -> -> -> -> ->]].
    all: apply always_next; [reflexivity|]; intros b1 n1; byte_case; destruct (digitb b1) eqn:D1; [|apply does_wrong];
      apply always_go; reduce; apply digitb_is in D1; unfold digit, byte in D1.
    all: apply always_next; [reflexivity|]; intros b2 n2; byte_case; match goal with |- context [b2 =? ?x] => destruct (b2 =? x) end; [apply G|];
      destruct (digitb b2) eqn:D2; [|apply does_wrong];
      apply always_go; reduce; apply digitb_is in D2; unfold digit, byte in D2.
    all: apply always_next; [reflexivity|]; intros b3 n3; byte_case; rewrite m14_small by lia;
      replace ((b1 - 48) * 10 + (b2 - 48)) with (10 * (b1 - 48) + (b2 - 48)) by lia;
      match goal with |- context [b3 =? ?x] => destruct (b3 =? x) end; [apply G|];
      destruct (digitb b3) eqn:D3; [|apply does_wrong];
      apply always_go; reduce; apply digitb_is in D3; unfold digit, byte in D3.
    all: rewrite m14_small by lia;
      replace ((10 * (b1 - 48) + (b2 - 48)) * 10 + (b3 - 48)) with (10 * (10 * (b1 - 48) + (b2 - 48)) + (b3 - 48)) by lia;
      apply always_next; [reflexivity|]; intros b4 n4; byte_case;
      match goal with |- context [b4 =? ?x] => destruct (b4 =? x) end; [apply G|apply does_wrong].
  Qed.

  Lemma reads_code k : (forall c, always (A StResponseStatusCodeSpace c 0 0) (k c)) ->
    always (Z StResponseStatusCode1) (code [StResponseStatusCode1; StResponseStatusCode2; StResponseStatusCode3] 0 ErStatusCode k).
  Proof.
    intros K. cbn [code].
    apply always_next; [reflexivity|]; intros b1 n1; byte_case; destruct (digitb b1) eqn:D1; [|apply does_wrong];
      apply always_go; reduce; apply digitb_is in D1; unfold digit, byte in D1.
    apply always_next; [reflexivity|]; intros b2 n2; byte_case; destruct (digitb b2) eqn:D2; [|apply does_wrong];
      apply always_go; reduce; apply digitb_is in D2; unfold digit, byte in D2.
    apply always_next; [reflexivity|]; intros b3 n3; byte_case; destruct (digitb b3) eqn:D3; [|apply does_wrong];
      apply always_go; reduce; apply digitb_is in D3; unfold digit, byte in D3.
    rewrite (m14_small (0 + (b1 - 48) * 100)) by lia. rewrite (m14_small (_ + (b2 - 48) * 10)) by lia. rewrite m14_small by lia.
    replace (10 * (10 * (10 * 0 + (b1 - 48)) + (b2 - 48)) + (b3 - 48))
      with (0 + (b1 - 48) * 100 + (b2 - 48) * 10 + (b3 - 48) * 1) by lia. apply K.
  Qed.

  (* A state that looks at the first byte and goes on as another one. *)
  Lemma reads_check {at_} a a' (p : byte -> bool) (err : byte -> perror) k : rests a at_ -> needs_byte (a_st a') = true ->
    (forall b, abyte_raw bd a b = if p b then abyte_raw bd a' b else AErr (err b)) ->
    always a' k -> always a (check at_ p err k).
  Proof.
    intros N N' E K n l [|b s] L; [now apply shows_nil|]. cbn [check].
    specialize (K n l (b :: s) L). rewrite aexec_byte in K |- * by (exact (rests_needs _ _ N) || assumption). unfold abyte in *. rewrite E.
    destruct (p b); [exact K|]. cbn. rewrite app_nil_r. now exists s.
  Qed.

  Lemma reads_many_literal s (c : byte) s' (p : byte -> bool) k (show : byte -> list fevent) (err : byte -> perror) : needs_byte s = true -> uses_lo s = false -> uses_up s = false -> p c = false ->
    (forall b, abyte_raw bd (Z s) b = if p b then AGo (show b) (Z s) else a_expect (Z s) c s' err b) ->
    always (nrm Head (Z s')) k -> always (Z s) (many s p show (expect s c err k)).
  Proof.
    intros N U1 U2 Pc E K n. apply reads_many_next; [unfold rests; cbn [a_st]; now rewrite N|now apply head_keeps| |].
    - intros b P. now rewrite E, P.
    - intros b P. rewrite E, P. unfold a_expect. destruct (b =? c); [apply does_go, K|apply does_wrong].
  Qed.

  Lemma reads_reason k : always (Z StInitialEnd) k ->
    always (Z StResponseStatus1) (some StResponseStatus1 StResponseStatus2 reasonb (as_is KStatus) ErStatus (expect StResponseStatus2 13 ErStatus k)).
  Proof.
    intros K. apply (reads_check _ (Z StResponseStatus2)); [reflexivity|reflexivity| |].
    - intros b. cbn [abyte_raw a_st]. rewrite reason_eq. reflexivity.
    - apply (reads_many_literal _ _ StInitialEnd); try reflexivity; [|exact K].
      intros b. cbn [abyte_raw a_st]. unfold a_status2. rewrite reason_eq. reflexivity.
  Qed.

  Lemma reads_status_line : always (Z StResponseVersionMajor1) status_line.
  Proof.
    unfold status_line, response_version. eapply reads_major; [right; reflexivity|]. intros v.
    eapply reads_minor; [right; reflexivity|]. apply reads_code. intros c.
    unfold expect. apply always_next; [reflexivity|]. intros b n. cbn [abyte_raw a_st].
    destruct (b =? 32); [|apply does_wrong]. apply does_say. cbn [a_lo]. unfold st; cbn [nrm a_st uses_lo uses_up a_lo a_up a_len].
    apply reads_reason, reads_fields.
  Qed.

  Lemma reads_url : always (Z StRequestUrl1)
    (some StRequestUrl1 StRequestUrl2 visible_byte (as_is KUrl) ErUrl (expect StRequestUrl2 32 ErUrl
     (expect StRequestHttp1 72 ErVersion (expect StRequestHttp2 84 ErVersion (expect StRequestHttp3 84 ErVersion
     (expect StRequestHttp4 80 ErVersion (expect StRequestHttp5 47 ErVersion (request_version fields)))))))).
  Proof.
    apply (reads_check _ (Z StRequestUrl2)); [reflexivity|reflexivity| |].
    - intros b. cbn [abyte_raw a_st]. unfold a_url1, a_url2. rewrite visible_eq. now destruct (visible_byte b).
    - apply (reads_many_literal _ _ StRequestHttp1); try reflexivity.
      apply (always_literal1 _ _ StRequestHttp2); [reflexivity|reflexivity|].
      apply (always_literal1 _ _ StRequestHttp3); [reflexivity|reflexivity|].
      apply (always_literal1 _ _ StRequestHttp4); [reflexivity|reflexivity|].
      apply (always_literal1 _ _ StRequestHttp5); [reflexivity|reflexivity|].
      apply (always_literal1 _ _ StRequestVersionMajor1); [reflexivity|reflexivity|].
      unfold request_version. eapply reads_major; [left; reflexivity|]. intros v.
      eapply reads_minor; [left; reflexivity|]. apply reads_fields.
  Qed.

  Definition url_line : reader :=
    some StRequestUrl1 StRequestUrl2 visible_byte (as_is KUrl) ErUrl (expect StRequestUrl2 32 ErUrl
     (expect StRequestHttp1 72 ErVersion (expect StRequestHttp2 84 ErVersion (expect StRequestHttp3 84 ErVersion
     (expect StRequestHttp4 80 ErVersion (expect StRequestHttp5 47 ErVersion (request_version fields))))))).

  Lemma reads_method : always (Z StRequestMethod) (many StRequestMethod upperb (as_is KMethod) (expect StRequestMethod 32 ErMethod url_line)).
  Proof.
    apply (reads_many_literal _ _ StRequestUrl1); try reflexivity; [|exact reads_url].
    intros b. cbn [abyte_raw a_st]. unfold a_method. rewrite upper_eq. reflexivity.
  Qed.

  (* Reading a beginning of "HTTP" as a method. *)
  Lemma many_app at_ p show k w : forall l s, forallb p w = true -> many at_ p show k l (w ++ s) = many at_ p show k (l ++ flat_map show w) s.
  Proof.
    induction w as [|b w IH]; intros l s F; cbn [app flat_map many]; [now rewrite app_nil_r|].
    cbn [forallb] in F. apply andb_true_iff in F. destruct F as [-> F]. now rewrite IH, <- app_assoc.
  Qed.

  Lemma detect_off a pre expect s b l r : needs_byte (a_st a) = true -> a = Z (a_st a) -> forallb upperb pre = true ->
    pre <> [] ->
    (forall b, abyte_raw bd a b = a_detect a pre expect s b) -> b <> expect ->
    shows (aexec Head bd clen a l (b :: r)) (request_line l (pre ++ b :: r)).
  Proof.
    intros N Za P NE E B. rewrite aexec_byte by exact N. unfold abyte. rewrite E. unfold a_detect.
    destruct (N.eqb_spec b expect) as [|_]; [contradiction|].
    unfold request_line, some. destruct pre as [|c pre]; [congruence|].
    cbn [app check]. change (c :: pre ++ b :: r) with ((c :: pre) ++ b :: r).
    pose proof P as P'. cbn [forallb] in P'. apply andb_true_iff in P'. destruct P' as [-> _].
    fold url_line.
    rewrite many_app by exact P.
    pose proof (reads_method _ (l ++ map (FByte KMethod) (c :: pre)) (b :: r) (le_n _)) as M.
    rewrite aexec_byte in M by reflexivity. unfold abyte in M. cbn [abyte_raw a_st] in M.
    assert (Ep : flat_map (as_is KMethod) (c :: pre) = map (FByte KMethod) (c :: pre)).
    { clear. induction (c :: pre) as [|x w IH]; [reflexivity|]. cbn. now f_equal. }
    rewrite Ep. rewrite Za. unfold a_method in *. destruct (is_upper b).
    { cbn [with_ev] in *. unfold st in *; cbn [a_lo a_up a_len] in *. rewrite app_assoc. exact M. }
    destruct (b =? 32).
    { cbn [with_ev] in *. unfold st in *; cbn [a_lo a_up a_len] in *. rewrite app_assoc. exact M. }
    cbn [with_ev] in *. rewrite app_assoc. exact M.
  Qed.

  Ltac off s0 pre e s1 := apply (detect_off (Z s0) pre e s1); [reflexivity|reflexivity|reflexivity|discriminate|reflexivity|congruence].
  Ltac on := rewrite (aexec_byte _ _ _ (Z _)) by reflexivity; unfold abyte; cbn [abyte_raw a_st]; unfold a_detect;
    rewrite N.eqb_refl; cbn [nrm st a_st a_lo a_up a_len uses_lo uses_up]; rewrite app_nil_r.

  (* After the H. *)
  Lemma reads_h l s : shows (aexec Head bd clen (Z StDetect2) l s)
    (if begins (bs "HTTP/") (72 :: s) then status_line l (skipn 5 (72 :: s))
     else if begins (72 :: s) (bs "HTTP/") then (l, Partial (detecting (72 :: s))) else request_line l (72 :: s)).
  Proof.
    change (bs "HTTP/") with [72; 84; 84; 80; 47].
    destruct s as [|b1 s]; [now apply shows_nil|]. cbn [begins]. rewrite N.eqb_refl. rewrite (N.eqb_sym b1 84).
    destruct (N.eqb_spec 84 b1) as [<-|N1]; cbn [andb]; [on|off StDetect2 (bs "H") 84 StDetect3].
    destruct s as [|b2 s]; [now apply shows_nil|]. cbn [begins]. rewrite (N.eqb_sym b2 84).
    destruct (N.eqb_spec 84 b2) as [<-|N2]; cbn [andb]; [on|off StDetect3 (bs "HT") 84 StDetect4].
    destruct s as [|b3 s]; [now apply shows_nil|]. cbn [begins]. rewrite (N.eqb_sym b3 80).
    destruct (N.eqb_spec 80 b3) as [<-|N3]; cbn [andb]; [on|off StDetect4 (bs "HTT") 80 StDetect5].
    destruct s as [|b4 s]; [now apply shows_nil|]. cbn [begins]. rewrite (N.eqb_sym b4 47).
    destruct (N.eqb_spec 47 b4) as [<-|N4]; cbn [andb]; [on|off StDetect5 (bs "HTTP") 47 StResponseVersionMajor1].
    cbn [skipn]. now apply (reads_status_line (List.length s)).
  Qed.

  Lemma reads_message s : shows (aexec Head bd clen (Z StStripDetect) [] s) (read_head s).
  Proof.
    induction s as [|b s IH]; [now apply shows_nil|]. unfold read_head. cbn [strip].
    rewrite aexec_byte by reflexivity. unfold abyte. cbn [abyte_raw a_st].
    destruct ((b =? 13) || (b =? 10) || (b =? 9) || (b =? 32)) eqn:W; [exact IH|].
    unfold a_detect1. destruct (N.eqb_spec b 72) as [->|N72].
    { unfold st; cbn [nrm a_st a_lo a_up a_len uses_lo uses_up]. rewrite app_nil_r. apply reads_h. }
    cbv zeta. change (bs "HTTP/") with [72; 84; 84; 80; 47]. cbn [begins].
    rewrite (N.eqb_sym 72 b). destruct (N.eqb_spec b 72) as [|_]; [contradiction|]. cbn [andb].
    unfold request_line, some. cbn [check]. rewrite upper_eq. destruct (upperb b) eqn:U.
    - pose proof (reads_method (S (List.length s)) [] (b :: s) (le_n _)) as M.
      rewrite aexec_byte in M by reflexivity. unfold abyte in M. cbn [abyte_raw a_st] in M. unfold a_method in M.
      rewrite upper_eq, U in M. exact M.
    - eexists; reflexivity.
  Qed.
End Heads.
