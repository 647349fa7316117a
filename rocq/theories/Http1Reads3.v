(* The automaton of Http1Sem.v understands every stream as the readers of
   Http1Reader.v do: multipart and URL-encoded bodies. *)

From Coq Require Import NArith List Bool Arith String Lia.
From Verif Require Import Bytes ByteStream Http1Model Http1Base Http1Wp Http1Term Http1Spec Http1Sem
  Http1Sim Http1Step Http1Misc Http1Run Http1Client Http1Api Http1Protocol Http1Data Http1Wire
  Http1Round Http1Round2 Http1Accept Http1Parse Http1Parse2 Http1Reader Http1Reads Http1Reads2.
Import ListNotations.
Local Open Scope N_scope.

Section Parts.
  Variables (bd : list byte) (clen : list fevent -> option N).
  Notation reads := (reads Multipart (Some bd) clen).
  Notation does := (does Multipart (Some bd) clen).

  (* The byte c of the boundary, after x. *)
  Lemma boundary_byte x c y lo len b : bd = x ++ c :: y ->
    abyte_raw (Some bd) (A StMultipartBoundary lo (N.of_nat (List.length x)) len) b =
    if b =? c then AGo [] (match y with [] => A StMultipartBoundaryCr lo 0 len
                                      | _ => A StMultipartBoundary lo (N.of_nat (List.length (x ++ [c]))) len end)
    else if lo =? 0 then with_ev (data (crlf ++ bs "--" ++ x)) (a_by_byte (A StMultipartDataByByte lo 0 len) b)
    else AErr (ErMultipartBoundary b).
  Proof.
    intros E. cbn [abyte_raw a_st a_boundary a_up a_lo]. rewrite Nat2N.id.
    assert (X : nth_error bd (List.length x) = Some c).
    { rewrite E, nth_error_app2 by lia. now rewrite Nat.sub_diag. }
    rewrite X. destruct (b =? c).
    - assert (Len : List.length bd = (List.length x + S (List.length y))%nat) by (rewrite E, app_length; reflexivity).
      destruct y as [|d y].
      + rewrite Len. cbn [List.length]. rewrite Nat.add_1_r, Nat.eqb_refl. reflexivity.
      + rewrite Len. cbn [List.length]. destruct (Nat.eqb_spec (S (List.length x)) (List.length x + S (S (List.length y)))); [lia|].
        unfold st_up. cbn [a_lo a_len]. rewrite app_length. cbn [List.length]. do 3 f_equal. lia.
    - destruct (lo =? 0); [|reflexivity]. unfold st_up; cbn [a_lo a_len].
      replace (firstn (List.length x) bd) with x; [reflexivity|].
      rewrite E, firstn_app, Nat.sub_diag, firstn_O, app_nil_r, firstn_all. reflexivity.
  Qed.

  Lemma past_byte lo len b :
    abyte_raw (Some bd) (A (past_boundary bd) lo 0 len) b = a_boundary_cr (A StMultipartBoundaryCr lo 0 len) b.
  Proof. destruct bd; reflexivity. Qed.

  Lemma past_rests lo len : rests (A (past_boundary bd) lo 0 len) (past_boundary bd).
  Proof. destruct bd; reflexivity. Qed.

  (* The boundary is required. *)
  Lemma reads_rest len n k : reads n (A (past_boundary bd) 1 0 len) k ->
    forall y x, bd = x ++ y -> y <> [] ->
    forall m, (m <= n)%nat -> reads m (A StMultipartBoundary 1 (N.of_nat (List.length x)) len) (literal StMultipartBoundary y ErMultipartBoundary k).
  Proof.
    intros K. induction y as [|c y IH]; intros x E NE m M; [congruence|]. cbn [literal].
    apply reads_next; [reflexivity|]. intros b. rewrite (boundary_byte x c y) by exact E.
    destruct (b =? c); [|apply does_wrong]. apply does_go. cbn [nrm]. destruct y as [|d y].
    - cbn [literal]. replace StMultipartBoundaryCr with (past_boundary bd) by (rewrite E; now destruct x).
      apply (reads_le _ _ _ _ n); [lia|exact K].
    - apply IH; [now rewrite <- app_assoc|discriminate|lia].
  Qed.

  Lemma reads_required len n k : reads n (A (past_boundary bd) 1 0 len) k ->
    reads n (A StMultipartHyphen1 1 0 len) (delimiter bd k).
  Proof.
    intros K.
    apply (reads_literal1 _ _ _ _ _ _ StMultipartHyphen2); [reflexivity|reflexivity|].
    apply (reads_literal1 _ _ _ _ _ _ StMultipartBoundary); [reflexivity|reflexivity|].
    destruct bd eqn:B; [apply (reads_le _ _ _ _ n); [lia|exact K]|rewrite <- B in *].
    apply (reads_rest len n k K bd [] eq_refl); [congruence|lia].
  Qed.

  (* Data of declared length, then the boundary. *)
  Lemma reads_declared n0 k : reads n0 (A (past_boundary bd) 1 0 0) k -> forall v n, (n <= n0)%nat ->
    reads n (A StMultipartDataByLength 1 0 v)
      (exactly StMultipartDataByLength v (as_is KMultipartData)
        (expect StMultipartDataByLengthCr 13 ErMultipartBoundary (expect StMultipartDataByLengthLf 10 ErMultipartBoundary (delimiter bd k)))).
  Proof.
    intros K.
    assert (R : reads n0 (A StMultipartDataByLengthCr 1 0 0) (expect StMultipartDataByLengthCr 13 ErMultipartBoundary (expect StMultipartDataByLengthLf 10 ErMultipartBoundary (delimiter bd k)))).
    { apply (reads_literal1 _ _ _ _ _ _ StMultipartDataByLengthLf); [reflexivity|reflexivity|].
      apply (reads_literal1 _ _ _ _ _ _ StMultipartHyphen1); [reflexivity|reflexivity|].
      unfold st; cbn [nrm a_lo a_up a_len]. apply reads_required. apply (reads_le _ _ _ _ n0); [lia|exact K]. }
    intros v n Ln l s. revert v l. induction s as [|b s IH]; intros len l L; cbn [exactly].
    - now apply shows_nil.
    - cbn [List.length] in L. destruct (N.eqb_spec len 0) as [->|NZ].
      + specialize (R l (b :: s) ltac:(cbn [List.length]; lia)). rewrite aexec_byte in R |- * by reflexivity. exact R.
      + rewrite aexec_byte by reflexivity. unfold abyte. cbn [abyte_raw a_st]. unfold a_by_length. cbn [a_len].
        destruct (N.eqb_spec len 0); [contradiction|]. unfold st_len; cbn [nrm a_lo a_up].
        destruct (N.eqb_spec len 1) as [->|N1].
        * apply R. lia.
        * apply IH. lia.
  Qed.

  (* Search for the boundary. *)
  Lemma reads_or_data len n k again : reads n (A (past_boundary bd) 0 0 len) k ->
    reads n (A StMultipartDataByByte 0 0 len) again ->
    forall y x, bd = x ++ y -> y <> [] ->
    forall m, (m <= n)%nat -> reads m (A StMultipartBoundary 0 (N.of_nat (List.length x)) len) (or_data x y again k).
  Proof.
    intros K G. induction y as [|c y IH]; intros x E NE m M; [congruence|]. cbn [or_data].
    intros l [|b s] L; [now apply shows_nil|]. cbn [List.length] in L.
    rewrite aexec_byte by reflexivity. unfold abyte. rewrite (boundary_byte x c y) by exact E.
    destruct (b =? c).
    - cbn [nrm]. rewrite app_nil_r. destruct y as [|d y].
      + cbn [or_data]. replace StMultipartBoundaryCr with (past_boundary bd) by (rewrite E; now destruct x). apply K. lia.
      + apply (IH (x ++ [c])) with (m := m); [now rewrite <- app_assoc|discriminate|lia|lia].
    - cbn [N.eqb].
      specialize (G (l ++ data (crlf ++ bs "--" ++ x)) (b :: s) ltac:(cbn [List.length]; lia)).
      rewrite aexec_byte in G by reflexivity. unfold abyte in G. cbn [abyte_raw a_st] in G.
      unfold a_by_byte in *. destruct (b =? 13); cbn [with_ev nrm] in *; rewrite app_assoc; exact G.
  Qed.

  Lemma reads_search len n0 k : reads (pred n0) (A (past_boundary bd) 0 0 len) k ->
    reads n0 (A StMultipartDataByByte 0 0 len) (search bd k).
  Proof.
    intros K. apply (reads_repeating_upto _ _ _ (at_ := StMultipartDataByByte)); [reflexivity|reflexivity|]. intros n again B G.
    assert (G' : forall m, (m <= n)%nat -> reads m (A StMultipartDataByByte 0 0 len) again)
      by (intros m M; now apply (reads_le _ _ _ _ n)).
    apply reads_next; [reflexivity|]. intros b1. cbn [abyte_raw a_st]. unfold a_by_byte.
    destruct (b1 =? 13); cbn [negb]; [|apply does_say, G'; lia]. apply does_go. unfold st; cbn [nrm a_lo a_up a_len].
    apply reads_next; [reflexivity|]. intros b2. cbn [abyte_raw a_st].
    destruct (b2 =? 10); cbn [negb]; [|apply does_say, G'; lia]. apply does_go. unfold st; cbn [nrm a_lo a_up a_len].
    apply reads_next; [reflexivity|]. intros b3. cbn [abyte_raw a_st]. unfold a_hyphen. cbn [a_lo N.eqb].
    destruct (b3 =? 45); cbn [negb]; [|apply does_say, G'; lia]. apply does_go. unfold st; cbn [nrm a_lo a_up a_len].
    apply reads_next; [reflexivity|]. intros b4. cbn [abyte_raw a_st]. unfold a_hyphen. cbn [a_lo N.eqb].
    destruct (b4 =? 45); cbn [negb]; [|apply does_say, G'; lia]. apply does_go. unfold st; cbn [nrm a_lo a_up a_len].
    destruct bd eqn:BD; [apply (reads_le _ _ _ _ (pred n0)); [lia|exact K]|rewrite <- BD in *].
    apply (reads_or_data len n k again) with (x := []); try congruence; try assumption; try reflexivity; try lia.
    apply (reads_le _ _ _ _ (pred n0)); [lia|exact K].
  Qed.

  Lemma reads_parts lo len n : reads n (A (past_boundary bd) lo 0 len) (parts bd clen).
  Proof.
    revert n. intros n.
    apply (reads_repeating_all _ _ _ (at_ := past_boundary bd) (fun a => exists lo len, a = A (past_boundary bd) lo 0 len)); [|reflexivity| |eauto].
    { intros a (x & y & ->). apply past_rests. }
    clear n lo len. intros n again R a (lo & len & ->). cbv zeta.
    assert (R' : forall lo len m, (m <= n)%nat -> reads m (A (past_boundary bd) lo 0 len) again).
    { intros lo' len' m M. apply (reads_le _ _ _ _ n); [exact M|]. apply R. eauto. }
    apply reads_next; [apply past_rests|]. intros b. rewrite past_byte. cbn [pred]. unfold a_boundary_cr.
    destruct (b =? 13).
    - apply does_say. apply (reads_literal1 _ _ _ _ _ _ StHeaderCr2); [reflexivity|reflexivity|].
      unfold st; cbn [nrm a_lo a_up a_len].
      apply (reads_lines_upto Multipart (Some bd) clen lo 0 len); [reflexivity|].
      apply reads_eps with (a' := A StMultipartDetectData lo 0 len); [reflexivity|].
      intros l s L. destruct (clen l) as [v|] eqn:E.
      + rewrite (aexec_eps _ _ _ _ _ _ [FEv EContentLength] (A StMultipartDataByLength 1 0 v))
          by (cbn [aeps a_st]; now rewrite E).
        unfold say. apply (reads_declared n again (R' 1 0 n (le_n _)) v n (le_n _)). lia.
      + rewrite (aexec_eps _ _ _ _ _ _ [FEv EContentLength] (A StMultipartDataByByte 0 0 len))
          by (cbn [aeps a_st]; now rewrite E).
        unfold say. apply (reads_search len n again (R' 0 len (pred n) ltac:(lia))). lia.
    - destruct (b =? 45); [|apply does_wrong]. apply does_go.
      apply (reads_literal1 _ _ _ _ _ _ StBodyFinished); [reflexivity|reflexivity|].
      apply reads_eps with (a' := A StFinished lo 0 len); [reflexivity|]. now apply reads_complete.
  Qed.

  Lemma reads_multipart n : reads n (A StMultipartHyphen1 1 0 0) (delimiter bd (parts bd clen)).
  Proof. apply reads_required, reads_parts. Qed.
End Parts.

(* ------------------------------------------------------------------ *)
(* URL-encoded bodies                                                   *)
(* ------------------------------------------------------------------ *)

Section Pairs.
  Variables (clen : list fevent -> option N).
  Notation reads := (reads UrlEncoded None clen).
  Notation does := (does UrlEncoded None clen).
  Notation U s := (A s 0 0 0).

  Lemma hex_pair x y : hexb x = true -> hexb y = true -> N.lor (16 * hexval x) (hexval y) mod 256 = 16 * hexval x + hexval y.
  Proof.
    intros X Y. apply hexb_is, hexval_small in X. apply hexb_is, hexval_small in Y.
    rewrite lor_add16 by exact Y. apply N.mod_small. lia.
  Qed.

  (* The states of names and of values. *)
  Definition coded_states (d : dkind) (err : byte -> perror) (stop : list byte) (s h1 h2 plus : pstate) : Prop :=
    (d, err, stop, s, h1, h2, plus) =
      (KUrlName, ErUrlEncodedName, bs "=&;", StUrlEncodedName, StUrlEncodedNameHex1, StUrlEncodedNameHex2, StUrlEncodedNamePlus) \/
    (d, err, stop, s, h1, h2, plus) =
      (KUrlValue, ErUrlEncodedValue, bs "&;", StUrlEncodedValue, StUrlEncodedValueHex1, StUrlEncodedValueHex2, StUrlEncodedValuePlus).

  Lemma reads_decoded d err stop s h1 h2 plus k n : coded_states d err stop s h1 h2 plus ->
    (forall b, existsb (N.eqb b) stop = true -> does (pred n) (abyte_raw None (U s) b) (k b)) ->
    reads n (U s) (decoded s h1 h2 d err stop k).
  Proof.
    intros C K.
    assert (H : forall j l r, (List.length r <= j)%nat -> (List.length r <= n)%nat ->
      shows (aexec UrlEncoded None clen (U s) l r) (decoded s h1 h2 d err stop k l r)).
    { assert (N0 : needs_byte s = true /\ needs_byte h1 = true /\ needs_byte h2 = true).
      { destruct C as [[= -> -> -> -> -> -> ->]|[= -> -> -> -> -> -> ->]]; now repeat split. }
      destruct N0 as (N0 & N1 & N2).
      assert (Rs : rests (U s) s /\ rests (U h1) h1 /\ forall v, rests (A h2 0 v 0) h2).
      { unfold rests; cbn [a_st]. now rewrite N0, N1, N2. }
      destruct Rs as (R0 & R1 & R2).
      assert (E0 : forall b, abyte_raw None (U s) b =
        if b =? 37 then AGo [] (U h1) else if b =? 43 then AGo [] (U plus)
        else if existsb (N.eqb b) stop then abyte_raw None (U s) b
        else if visible_byte b then AGo [FByte d b] (U s) else AErr (err b)).
      { intros b. destruct C as [[= -> -> -> -> -> -> ->]|[= -> -> -> -> -> -> ->]]; cbn [abyte_raw a_st];
          unfold a_url_name, a_url_value; destruct (b =? 37); try reflexivity; destruct (b =? 43); try reflexivity.
        - cbn [existsb].
          destruct (b =? 61); [reflexivity|]. destruct (b =? 38); [reflexivity|]. destruct (b =? 59); reflexivity.
        - cbn [existsb].
          destruct (b =? 38); [reflexivity|]. destruct (b =? 59); reflexivity. }
      assert (E1 : forall b, abyte UrlEncoded None (U h1) b =
        if hexb b then AGo [] (A h2 0 (16 * hexval b) 0) else AErr (err b)).
      { intros b. destruct C as [[= -> -> -> -> -> -> ->]|[= -> -> -> -> -> -> ->]]; unfold abyte; cbn [abyte_raw a_st];
          unfold a_hex1; rewrite hex_digit_eq; destruct (hexb b); reflexivity. }
      assert (E2 : forall v b, abyte UrlEncoded None (A h2 0 v 0) b =
        if hexb b then AGo [FByte d (N.lor v (hexval b) mod 256)] (U s) else AErr (err b)).
      { intros v b. destruct C as [[= -> -> -> -> -> -> ->]|[= -> -> -> -> -> -> ->]]; unfold abyte; cbn [abyte_raw a_st];
          unfold a_hex2; rewrite hex_digit_eq; destruct (hexb b); reflexivity. }
      assert (Ep : forall l r, aexec UrlEncoded None clen (U plus) l r = aexec UrlEncoded None clen (U s) (l ++ [FByte d 32]) r).
      { intros l r. apply aexec_eps. destruct C as [[= -> -> -> -> -> -> ->]|[= -> -> -> -> -> -> ->]]; reflexivity. }
      assert (Nr : forall x, uses_hex x = false -> nrm UrlEncoded (U x) = U x) by (intros x; cbn; now intros ->).
      assert (Us : uses_hex s = false /\ uses_hex h1 = false /\ uses_hex plus = false).
      { destruct C as [[= -> -> -> -> -> -> ->]|[= -> -> -> -> -> -> ->]]; now repeat split. }
      destruct Us as (Us & U1 & Up).
      induction j as [|j IH]; intros l [|b r] Lj Ln; try (now apply shows_nil); cbn [List.length] in *; [lia|].
      cbn [decoded]. rewrite aexec_byte by exact N0. unfold abyte. rewrite E0.
      destruct (b =? 37).
      { rewrite Nr, app_nil_r by assumption. destruct r as [|x r]; [now apply shows_nil|].
        rewrite aexec_byte by exact N1. rewrite E1. destruct (hexb x) eqn:X.
        - rewrite app_nil_r. destruct r as [|y r]; [now apply shows_nil|].
          rewrite aexec_byte by exact N2. rewrite E2. destruct (hexb y) eqn:Y.
          + rewrite hex_pair by assumption. cbn [List.length] in *. apply IH; lia.
          + cbn. rewrite app_nil_r; eexists; reflexivity.
        - cbn. rewrite app_nil_r; eexists; reflexivity. }
      destruct (b =? 43).
      { rewrite Nr, app_nil_r, Ep by assumption. apply IH; lia. }
      destruct (existsb (N.eqb b) stop) eqn:Ex.
      { specialize (K b Ex l r ltac:(lia)). destruct (abyte_raw None (U s) b); exact K. }
      destruct (visible_byte b).
      { rewrite Nr by assumption. apply IH; lia. }
      cbn. rewrite app_nil_r; eexists; reflexivity. }
    intros l r L. now apply (H (List.length r)).
  Qed.

  Lemma reads_pairs n : reads n (U StFirstUrlEncodedName) pairs.
  Proof.
    revert n. apply (reads_repeating _ _ _ (at_ := StFirstUrlEncodedName)); [reflexivity|reflexivity|]. intros n again R.
    assert (D : reads (S n) (U StUrlEncodedName)
      (decoded StUrlEncodedName StUrlEncodedNameHex1 StUrlEncodedNameHex2 KUrlName ErUrlEncodedName (bs "=&;") (fun b =>
             if b =? 61 then decoded StUrlEncodedValue StUrlEncodedValueHex1 StUrlEncodedValueHex2 KUrlValue ErUrlEncodedValue (bs "&;") (fun _ => again) else again))).
    { apply (reads_decoded _ _ _ _ StUrlEncodedNameHex1 StUrlEncodedNameHex2 StUrlEncodedNamePlus); [left; reflexivity|]. intros b E. cbn [abyte_raw a_st]. unfold a_url_name.
      change (existsb (N.eqb b) (bs "=&;")) with ((b =? 61) || ((b =? 38) || ((b =? 59) || false))) in E.
      destruct (N.eqb_spec b 61) as [E61|N61]; [rewrite E61|].
      - cbn [N.eqb Pos.eqb]. apply does_go. unfold st; cbn [nrm a_st uses_hex].
        apply (reads_decoded _ _ _ _ StUrlEncodedValueHex1 StUrlEncodedValueHex2 StUrlEncodedValuePlus); [right; reflexivity|]. clear b E E61. intros b E'. cbn [abyte_raw a_st]. unfold a_url_value.
        change (existsb (N.eqb b) (bs "&;")) with ((b =? 38) || ((b =? 59) || false)) in E'. rewrite orb_false_r in E'.
        assert (b =? 37 = false /\ b =? 43 = false) as [-> ->].
        { split; apply N.eqb_neq; intros ->; discriminate E'. }
        rewrite E'. apply does_go. apply (reads_le _ _ _ _ n); [cbn; lia|exact R].
      - cbn [orb] in E. rewrite orb_false_r in E.
        assert (b =? 37 = false /\ b =? 43 = false) as [-> ->].
        { split; apply N.eqb_neq; intros ->; discriminate E. }
        rewrite E. apply does_go. apply (reads_le _ _ _ _ n); [cbn; lia|exact R]. }
    intros l [|b s] L; [now apply shows_nil|].
    specialize (D (l ++ [FEv EUrlBegin]) (b :: s) L). unfold say.
    rewrite aexec_byte in D |- * by reflexivity. unfold abyte in *. cbn [abyte_raw a_st] in *.
    change (a_url_name (U StFirstUrlEncodedName) b) with (a_url_name (U StUrlEncodedName) b).
    destruct (a_url_name (U StUrlEncodedName) b) eqn:E; cbn [with_ev].
    - rewrite app_assoc. exact D.
    - rewrite app_assoc. exact D.
    - exfalso. unfold a_url_name in E. repeat match type of E with context [if ?c then _ else _] => destruct c end; discriminate E.
  Qed.
End Pairs.
