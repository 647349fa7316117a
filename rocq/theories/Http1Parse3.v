(* What the automaton accepts, against the grammar of Http1Accept.v: multipart
   bodies. *)

From Coq Require Import NArith List Bool Arith String Lia.
From Verif Require Import Bytes ByteStream Http1Model Http1Base Http1Wp Http1Term Http1Spec Http1Sem
  Http1Sim Http1Step Http1Misc Http1Run Http1Client Http1Api Http1Protocol Http1Data Http1Wire
  Http1Round Http1Round2 Http1Accept Http1Parse Http1Parse2.
Import ListNotations.
Local Open Scope N_scope.

Section Parts.
  Variables (clen : list fevent -> option N) (bd : list byte) (L : list fevent) (tail : list byte).
  Notation go := (aexec Multipart (Some bd) clen).
  Notation run a l r := (finishes (aexec Multipart (Some bd) clen a l r) L tail).

  Lemma mno_end s l : needs_byte s = true -> forall lo up len, ~ run (A s lo up len) l [].
  Proof.
    intros N lo up len F. apply finishes_step in F; [|exact N]. destruct F as (? & ? & ? & ? & X & _). discriminate X.
  Qed.

  Ltac one F b r := step F b r; cbn [nrm a_st a_lo a_up a_len] in F; rewrite ?app_nil_r in F.

  (* the rest x of a boundary that has to be there *)
  Lemma required_inv lo len : lo <> 0 -> forall x y r l, bd = y ++ x -> x <> [] ->
    run (A StMultipartBoundary lo (N.of_nat (List.length y)) len) l r ->
    exists r', r = x ++ r' /\ run (A StMultipartBoundaryCr lo 0 len) l r'.
  Proof.
    intros NZ. apply N.eqb_neq in NZ.
    induction x as [|c x IH]; intros y r l E N F; [congruence|].
    apply finishes_step in F; [|reflexivity]. destruct F as (b & r' & ev & a & -> & R & F).
    cbn [abyte_raw a_st a_boundary a_up a_lo] in R.
    rewrite Nat2N.id in R. rewrite E in R at 1. rewrite nth_error_app2, Nat.sub_diag in R by lia.
    cbn [nth_error] in R. rewrite NZ in R. destruct (N.eqb_spec b c) as [->|]; [|discriminate R].
    rewrite E, app_length in R. cbn [List.length] in R.
    destruct (Nat.eqb_spec (S (List.length y)) (List.length y + S (List.length x))) as [X|X].
    - destruct x; [|cbn in X; lia]. injection R as <- <-. rewrite app_nil_r in F. exists r'. split; [reflexivity|exact F].
    - injection R as <- <-. rewrite app_nil_r in F.
      destruct (IH (y ++ [c]) r' l) as (r2 & -> & G).
      + now rewrite <- app_assoc.
      + intros ->. cbn in X. lia.
      + rewrite app_length. cbn [List.length].
        replace (N.of_nat (List.length y + 1)) with (N.of_nat (List.length y) + 1) by lia. exact F.
      + exists r2. now split.
  Qed.

  Lemma delimiter_inv lo len r l : lo <> 0 -> run (A StMultipartHyphen1 lo 0 len) l r ->
    exists r', r = bs "--" ++ bd ++ r' /\ run (A StMultipartBoundaryCr lo 0 len) l r'.
  Proof.
    intros NZ F. pose proof NZ as NZ'. apply N.eqb_neq in NZ'.
    apply finishes_step in F; [|reflexivity]. destruct F as (b & r1 & ev & a & -> & R & F).
    cbn [abyte_raw a_st] in R. unfold a_hyphen in R. cbn [a_lo] in R. rewrite NZ' in R.
    destruct (N.eqb_spec b 45) as [->|]; [|discriminate R]. injection R as <- <-.
    apply finishes_step in F; [|reflexivity]. destruct F as (b & r2 & ev & a & -> & R & F).
    cbn [abyte_raw a_st nrm st] in R. unfold a_hyphen in R. cbn [a_lo st] in R. rewrite NZ' in R.
    destruct (N.eqb_spec b 45) as [->|]; [|discriminate R]. injection R as <- <-.
    rewrite !app_nil_r in F.
    destruct (list_eq_dec N.eq_dec bd []) as [Eb|Hbd].
    { exists r2. split; [now rewrite Eb|]. change (run (A StMultipartBoundary lo 0 len) l r2) in F.
      unfold finishes in *. rewrite boundary_none in F; [exact F|exact Eb|]. intros ->. now apply mno_end in F. }
    destruct (required_inv lo len NZ bd [] r2 l eq_refl Hbd F) as (r3 & -> & G). exists r3. now split.
  Qed.

  (* the rest x of a boundary in data *)
  Lemma optional_inv len : forall x y r l, bd = y ++ x -> x <> [] ->
    run (A StMultipartBoundary 0 (N.of_nat (List.length y)) len) l r ->
    (exists r', r = x ++ r' /\ run (A StMultipartBoundaryCr 0 0 len) l r') \/
    (exists x1 c x2 r', x = x1 ++ c :: x2 /\ r = x1 ++ r' /\ hd_error r' <> Some c /\
       run (A StMultipartDataByByte 0 0 len) (l ++ map (FByte KMultipartData) ([13; 10; 45; 45] ++ y ++ x1)) r').
  Proof.
    induction x as [|c x IH]; intros y r l E N F; [congruence|].
    apply finishes_step in F; [|reflexivity]. destruct F as (b & r' & ev & a & -> & R & F).
    cbn [abyte_raw a_st a_boundary a_up a_lo] in R.
    rewrite Nat2N.id in R. rewrite E in R at 1. rewrite nth_error_app2, Nat.sub_diag in R by lia.
    cbn [nth_error] in R. destruct (N.eqb_spec b c) as [->|NE].
    - rewrite E, app_length in R. cbn [List.length] in R.
      destruct (Nat.eqb_spec (S (List.length y)) (List.length y + S (List.length x))) as [X|X].
      + destruct x; [|cbn in X; lia]. injection R as <- <-. rewrite app_nil_r in F. left. exists r'. split; [reflexivity|exact F].
      + injection R as <- <-. rewrite app_nil_r in F.
        destruct (IH (y ++ [c]) r' l) as [(r2 & -> & G)|(x1 & c' & x2 & r2 & -> & -> & H & G)].
        * now rewrite <- app_assoc.
        * intros ->. cbn in X. lia.
        * rewrite app_length. cbn [List.length].
          replace (N.of_nat (List.length y + 1)) with (N.of_nat (List.length y) + 1) by lia. exact F.
        * left. exists r2. now split.
        * right. exists (c :: x1), c', x2, r2. repeat split; [exact H|]. rewrite <- app_assoc in G. exact G.
    - right. exists [], c, x, (b :: r'). repeat split; [cbn; congruence|].
      cbn [N.eqb] in R. rewrite E, firstn_app, Nat.sub_diag, firstn_O, app_nil_r, firstn_all in R.
      unfold finishes. rewrite aexec_byte by reflexivity. unfold abyte. cbn [abyte_raw a_st].
      unfold st_up in R. cbn [a_lo a_up a_len] in R.
      destruct (a_by_byte (A StMultipartDataByByte 0 0 len) b) as [ev2 a2|ev2 e2|] eqn:X; cbn [with_ev] in R; try discriminate R.
      injection R as <- <-. rewrite app_nil_r. rewrite <- app_assoc. exact F.
  Qed.

  (* data up to the delimiter *)
  Lemma delimited_inv len : forall k r l, (List.length r <= k)%nat -> run (A StMultipartDataByByte 0 0 len) l r ->
    exists d r', delimited bd d /\ r = d ++ crlf ++ bs "--" ++ bd ++ r' /\
      run (A StMultipartBoundaryCr 0 0 len) (l ++ map (FByte KMultipartData) d) r'.
  Proof.
    induction k as [|k IH]; intros r l Len F.
    { destruct r; [now apply mno_end in F|cbn in Len; lia]. }
    (* prefix x of data has been reported; the rest is shorter *)
    assert (GO : forall x r', (List.length r' <= k)%nat ->
              run (A StMultipartDataByByte 0 0 len) (l ++ map (FByte KMultipartData) x) r' ->
              (forall d, (d <> [] -> hd_error d = hd_error r') -> delimited bd d -> delimited bd (x ++ d)) ->
              r = x ++ r' ->
              exists d r', delimited bd d /\ r = d ++ crlf ++ bs "--" ++ bd ++ r' /\
                run (A StMultipartBoundaryCr 0 0 len) (l ++ map (FByte KMultipartData) d) r').
    { intros x r' Lr G D ->. destruct (IH _ _ Lr G) as (d & r2 & Dd & -> & G2). exists (x ++ d), r2. repeat split.
      - apply D; [|exact Dd]. intros Nd. now destruct d.
      - now rewrite <- app_assoc.
      - rewrite map_app, app_assoc. exact G2. }
    pose proof F as F0.
    apply finishes_step in F; [|reflexivity]. destruct F as (b & r1 & ev & a & -> & R & F). cbn [List.length] in Len.
    cbn [abyte_raw a_st] in R. unfold a_by_byte in R. destruct (N.eqb_spec b 13) as [->|N1].
    2: { injection R as <- <-. apply (GO [b] r1); [lia|exact F| |reflexivity]. intros d _ D. now apply del_byte. }
    injection R as <- <-. rewrite app_nil_r in F.
    apply finishes_step in F; [|reflexivity]. destruct F as (b & r2 & ev & a & -> & R & F). cbn [List.length] in Len.
    cbn [abyte_raw a_st nrm st] in R. destruct (N.eqb_spec b 10) as [->|N2].
    2: { injection R as <- <-. apply (GO [13; b] r2); [lia|exact F| |reflexivity]. intros d _ D. now apply del_cr. }
    injection R as <- <-. rewrite app_nil_r in F.
    apply finishes_step in F; [|reflexivity]. destruct F as (b & r3 & ev & a & -> & R & F). cbn [List.length] in Len.
    cbn [abyte_raw a_st nrm st] in R. unfold a_hyphen in R. destruct (N.eqb_spec b 45) as [->|N3].
    2: { cbn [a_lo st N.eqb] in R. injection R as <- <-. apply (GO [13; 10; b] r3); [lia|exact F| |reflexivity]. intros d _ D. now apply del_lf. }
    injection R as <- <-. rewrite app_nil_r in F.
    apply finishes_step in F; [|reflexivity]. destruct F as (b & r4 & ev & a & -> & R & F). cbn [List.length] in Len.
    cbn [abyte_raw a_st nrm st] in R. unfold a_hyphen in R. destruct (N.eqb_spec b 45) as [->|N4].
    2: { cbn [a_lo st N.eqb] in R. injection R as <- <-. apply (GO [13; 10; 45; b] r4); [lia|exact F| |reflexivity]. intros d _ D. now apply del_hyphen. }
    injection R as <- <-. rewrite app_nil_r in F.
    destruct (list_eq_dec N.eq_dec bd []) as [Eb|Hbd].
    { exists [], r4. repeat split; [constructor|now rewrite Eb|]. cbn [map]. rewrite app_nil_r. change (run (A StMultipartBoundary 0 0 len) l r4) in F. unfold finishes in *.
      rewrite boundary_none in F; [exact F|exact Eb|]. intros ->. now apply mno_end in F. }
    destruct (optional_inv len bd [] r4 l eq_refl Hbd F) as [(r5 & -> & G)|(x1 & c & x2 & r5 & Ex & -> & Hh & G)].
    - exists [], r5. repeat split; [constructor|]. cbn [map]. rewrite app_nil_r. exact G.
    - apply (GO ([13; 10; 45; 45] ++ x1) r5).
      + rewrite app_length in Len. unfold byte in *. lia.
      + exact G.
      + intros d Hd D. rewrite <- app_assoc. apply (del_boundary bd x1 c x2); [exact Ex| |exact D].
        destruct d as [|c' d]; [discriminate|]. rewrite Hd by discriminate. exact Hh.
      + reflexivity.
  Qed.

  (* data of the declared length *)
  Lemma length_inv : forall r n l, run (A StMultipartDataByLength 1 0 n) l r \/ (n = 0 /\ run (A StMultipartDataByLengthCr 1 0 n) l r) ->
    exists d r', n = N.of_nat (List.length d) /\ r = d ++ crlf ++ bs "--" ++ bd ++ r' /\
      run (A StMultipartBoundaryCr 1 0 0) (l ++ map (FByte KMultipartData) d) r'.
  Proof.
    assert (CR : forall r l, run (A StMultipartDataByLengthCr 1 0 0) l r ->
              exists r', r = crlf ++ bs "--" ++ bd ++ r' /\ run (A StMultipartBoundaryCr 1 0 0) l r').
    { intros r l F. one F b r1. one F b2 r2. known. subst.
      destruct (delimiter_inv 1 0 r2 l ltac:(discriminate) F) as (r3 & -> & G). exists r3. now split. }
    induction r as [|b r IH]; intros n l F; [destruct F as [F|[_ F]]; now apply mno_end in F|].
    destruct F as [F|[-> F]].
    - destruct (N.eq_dec n 0) as [->|NZ].
      + assert (F' : run (A StMultipartDataByLengthCr 1 0 0) l (b :: r)).
        { unfold finishes in *. rewrite aexec_byte in * by reflexivity. exact F. }
        destruct (CR _ _ F') as (r' & -> & G). exists [], r'. cbn [map]. rewrite app_nil_r. now repeat split.
      + apply finishes_step in F; [|reflexivity]. destruct F as (b' & r' & ev & a & [= <- <-] & R & F).
        cbn [abyte_raw a_st] in R. unfold a_by_length in R. cbn [a_len] in R.
        pose proof NZ as NZ'. apply N.eqb_neq in NZ'. rewrite NZ' in R. injection R as <- <-.
        destruct (IH (n - 1) (l ++ [FByte KMultipartData b])) as (d & r' & D & -> & G).
        { destruct (N.eqb_spec n 1) as [->|N1].
          - right. split; [reflexivity|exact F].
          - left. exact F. }
        exists (b :: d), r'. repeat split; [cbn [List.length]; lia|]. rewrite <- app_assoc in G. exact G.
    - destruct (CR _ _ F) as (r' & -> & G). exists [], r'. cbn [map]. rewrite app_nil_r. now repeat split.
  Qed.

  Lemma parts_inv : forall k r lo len l, (List.length r <= k)%nat -> run (A StMultipartBoundaryCr lo 0 len) l r ->
    exists w e, r = w ++ tail /\ parts_as bd clen l w e /\ L = l ++ e.
  Proof.
    induction k as [|k IH]; intros r lo len l Len F.
    { destruct r; [now apply mno_end in F|cbn in Len; lia]. }
    apply finishes_step in F; [|reflexivity]. destruct F as (b & r1 & ev & a & -> & R & F). cbn [List.length] in Len.
    cbn [abyte_raw a_st] in R. unfold a_boundary_cr in R. destruct (N.eqb_spec b 13) as [->|N1].
    - injection R as <- <-. change (nrm Multipart (st (A StMultipartBoundaryCr lo 0 len) StInitialLf)) with (A StInitialLf lo 0 len) in F.
      one F b r2. known. subst.
      destruct (lines_inv Multipart (Some bd) clen lo 0 len (fun _ _ _ => eq_refl) L tail (List.length r2) _ _ (le_n _) F) as (x & e & r3 & X & -> & G).
      apply (finishes_eps _ _ _ _ _ _ _ _ [FEv EHeadersFinished] (A StMultipartDetectData lo 0 len)) in G; [|reflexivity].
      rewrite <- !app_assoc in G. unfold byte in Len; rewrite ?app_length in Len.
      assert (Q : exists d r' lo' len', match clen (l ++ [FEv EMultipartBegin] ++ e ++ [FEv EHeadersFinished]) with
                   | Some n => n = N.of_nat (List.length d) | None => delimited bd d end /\
                 r3 = d ++ crlf ++ bs "--" ++ bd ++ r' /\
                 run (A StMultipartBoundaryCr lo' 0 len') (l ++ [FEv EMultipartBegin] ++ (e ++ [FEv EHeadersFinished]) ++ [FEv EContentLength] ++ map (FByte KMultipartData) d) r').
      { destruct (clen (l ++ [FEv EMultipartBegin] ++ e ++ [FEv EHeadersFinished])) as [n|] eqn:C.
        - apply (finishes_eps _ _ _ _ _ _ _ _ [FEv EContentLength] (A StMultipartDataByLength 1 0 n)) in G;
            [|cbn [aeps a_st]; rewrite C; reflexivity].
          destruct (length_inv _ _ _ (or_introl G)) as (d & r' & D & -> & G2). exists d, r', 1, 0. repeat split; [exact D|].
          rewrite <- !app_assoc in *. exact G2.
        - apply (finishes_eps _ _ _ _ _ _ _ _ [FEv EContentLength] (A StMultipartDataByByte 0 0 len)) in G;
            [|cbn [aeps a_st]; rewrite C; reflexivity].
          destruct (delimited_inv len _ _ _ (le_n _) G) as (d & r' & D & -> & G2). exists d, r', 0, len. repeat split; [exact D|].
          rewrite <- !app_assoc in *. exact G2. }
      destruct Q as (d & r' & lo' & len' & D & -> & G2).
      assert (Len' : (List.length r' <= k)%nat) by (clear - Len; unfold byte in *; cbn [List.length] in Len; rewrite ?app_length in Len; lia).
      destruct (IH r' lo' len' _ Len' G2) as (w & e' & -> & W & E).
      exists (crlf ++ x ++ d ++ crlf ++ bs "--" ++ bd ++ w), ([FEv EMultipartBegin] ++ (e ++ [FEv EHeadersFinished]) ++ [FEv EContentLength] ++ map (FByte KMultipartData) d ++ e').
      split; [lists|]. split.
      + apply parts_part; try assumption.
      + rewrite E. now rewrite <- !app_assoc.
    - destruct (N.eqb_spec b 45) as [->|]; [|discriminate R]. injection R as <- <-.
      change (nrm Multipart (st (A StMultipartBoundaryCr lo 0 len) StMultipartEnd)) with (A StMultipartEnd lo 0 len) in F.
      rewrite app_nil_r in F. one F b r2. known. subst.
      apply (finishes_eps _ _ _ _ _ _ _ _ [FEv EBodyFinished] (A StFinished lo 0 len)) in F; [|reflexivity].
      destruct F as (a & G & _). rewrite aexec_finished in G by reflexivity. injection G as <- _ ->.
      exists (bs "--"), [FEv EBodyFinished]. repeat split. constructor.
  Qed.

  Lemma multipart_inv r : run (A StMultipartHyphen1 1 0 0) [] r -> exists w, r = w ++ tail /\ multipart_as bd clen w L.
  Proof.
    intros F. destruct (delimiter_inv 1 0 r [] ltac:(discriminate) F) as (r' & -> & G).
    destruct (parts_inv _ _ _ _ _ (le_n _) G) as (w & e & -> & W & ->).
    exists (bs "--" ++ bd ++ w). split; [lists|]. now constructor.
  Qed.
End Parts.

(* ------------------------------------------------------------------ *)
(* The other direction                                                  *)
(* ------------------------------------------------------------------ *)

Section PartsRun.
  Variables (clen : list fevent -> option N) (bd : list byte).
  Hypothesis Hcr : ~ In 13 bd.
  Notation run := (aexec Multipart (Some bd) clen).

  Lemma boundary_part len z : forall x y l r, bd = y ++ x ++ z -> z <> [] ->
    run (A StMultipartBoundary 0 (N.of_nat (List.length y)) len) l (x ++ r) =
    run (A StMultipartBoundary 0 (N.of_nat (List.length (y ++ x))) len) l r.
  Proof.
    induction x as [|b x IH]; intros y l r E N; cbn [app]; [now rewrite app_nil_r|].
    rewrite aexec_byte by reflexivity. unfold abyte. cbn [abyte_raw a_st a_boundary a_up a_lo].
    assert (X1 : nth_error bd (List.length y) = Some b).
    { rewrite E, nth_error_app2, Nat.sub_diag by lia. reflexivity. }
    assert (X2 : Nat.eqb (S (List.length y)) (List.length bd) = false).
    { apply Nat.eqb_neq. rewrite E, !app_length. cbn [List.length app]. rewrite ?app_length.
      destruct z; [congruence|cbn [List.length]; lia]. }
    rewrite Nat2N.id, X1, N.eqb_refl, X2. cbn [nrm]. rewrite ?app_nil_r.
    replace (y ++ b :: x) with ((y ++ [b]) ++ x) by now rewrite <- app_assoc.
    rewrite <- (IH (y ++ [b]) l r); [|now rewrite <- app_assoc|exact N].
    unfold st_up. cbn [a_lo a_up a_len].
    replace (N.of_nat (List.length (y ++ [b]))) with (N.of_nat (List.length y) + 1); [reflexivity|].
    rewrite app_length. cbn [List.length]. lia.
  Qed.

  Lemma by_byte_goes len b : exists ev a, a_by_byte (A StMultipartDataByByte 0 0 len) b = AGo ev a.
  Proof. unfold a_by_byte. destruct (b =? 13); eauto. Qed.

  Lemma boundary_stop len x y z b l r : bd = x ++ y :: z -> b <> y ->
    run (A StMultipartBoundary 0 (N.of_nat (List.length x)) len) l (b :: r) =
    run (A StMultipartDataByByte 0 0 len) (l ++ map (FByte KMultipartData) ([13; 10; 45; 45] ++ x)) (b :: r).
  Proof.
    intros E N. apply N.eqb_neq in N.
    rewrite !aexec_byte by reflexivity. unfold abyte. cbn [abyte_raw a_st a_boundary a_up a_lo].
    rewrite Nat2N.id. rewrite E at 1. rewrite nth_error_app2, Nat.sub_diag by lia. cbn [nth_error].
    rewrite N. cbn [N.eqb]. rewrite E, firstn_app, Nat.sub_diag, firstn_O, app_nil_r, firstn_all.
    unfold st_up. cbn [a_lo a_up a_len].
    destruct (by_byte_goes len b) as (ev & a & ->). cbn [with_ev nrm]. now rewrite app_assoc.
  Qed.

  Lemma delimited_run len d : delimited bd d -> forall l r,
    run (A StMultipartDataByByte 0 0 len) l (d ++ 13 :: r) =
    run (A StMultipartDataByByte 0 0 len) (l ++ map (FByte KMultipartData) d) (13 :: r).
  Proof.
    pose proof (mkeep clen bd 0 0 len) as K.
    induction 1 as [|b d N _ IH|b d N _ IH|b d N _ IH|b d N _ IH|x y z d E N D IH]; intros l r; cbn [app map].
    - now rewrite app_nil_r.
    - apply N.eqb_neq in N.
      rewrite (K StMultipartDataByByte b [FByte KMultipartData b] StMultipartDataByByte)
        by (try reflexivity; cbn [abyte_raw a_st]; unfold a_by_byte; now rewrite N).
      rewrite IH. now rewrite <- app_assoc.
    - apply N.eqb_neq in N.
      rewrite (K StMultipartDataByByte 13 [] StMultipartDataByByteLf) by reflexivity.
      rewrite (K StMultipartDataByByteLf b (map (FByte KMultipartData) [13; b]) StMultipartDataByByte)
        by (try reflexivity; cbn [abyte_raw a_st]; now rewrite N).
      rewrite IH. now rewrite app_nil_r, <- app_assoc.
    - apply N.eqb_neq in N.
      rewrite (K StMultipartDataByByte 13 [] StMultipartDataByByteLf) by reflexivity.
      rewrite (K StMultipartDataByByteLf 10 [] StMultipartHyphen1) by reflexivity.
      rewrite (K StMultipartHyphen1 b (map (FByte KMultipartData) [13; 10; b]) StMultipartDataByByte)
        by (try reflexivity; cbn [abyte_raw a_st]; unfold a_hyphen; now rewrite N).
      rewrite IH. now rewrite !app_nil_r, <- app_assoc.
    - apply N.eqb_neq in N.
      rewrite (K StMultipartDataByByte 13 [] StMultipartDataByByteLf) by reflexivity.
      rewrite (K StMultipartDataByByteLf 10 [] StMultipartHyphen1) by reflexivity.
      rewrite (K StMultipartHyphen1 45 [] StMultipartHyphen2) by reflexivity.
      rewrite (K StMultipartHyphen2 b (map (FByte KMultipartData) [13; 10; 45; b]) StMultipartDataByByte)
        by (try reflexivity; cbn [abyte_raw a_st]; unfold a_hyphen; now rewrite N).
      rewrite IH. now rewrite !app_nil_r, <- app_assoc.
    - rewrite (K StMultipartDataByByte 13 [] StMultipartDataByByteLf) by reflexivity.
      rewrite (K StMultipartDataByByteLf 10 [] StMultipartHyphen1) by reflexivity.
      rewrite (K StMultipartHyphen1 45 [] StMultipartHyphen2) by reflexivity.
      rewrite (K StMultipartHyphen2 45 [] StMultipartBoundary) by reflexivity.
      rewrite !app_nil_r, <- app_assoc.
      rewrite (boundary_part len (y :: z) x []) by (exact E || discriminate). cbn [app].
      assert (X : exists b r', d ++ 13 :: r = b :: r' /\ b <> y).
      { destruct d as [|b d].
        - exists 13, r. split; [reflexivity|]. intros <-. apply Hcr. rewrite E. apply in_or_app. right. now left.
        - exists b, (d ++ 13 :: r). split; [reflexivity|]. intros ->. now apply N. }
      destruct X as (b & r' & X1 & X2). rewrite X1, (boundary_stop len x y z b) by assumption. rewrite <- X1, IH.
      rewrite !map_app, <- !app_assoc. reflexivity.
  Qed.

  Lemma length_run d l r : r <> [] ->
    run (A StMultipartDataByLength 1 0 (N.of_nat (List.length d))) l (d ++ crlf ++ bs "--" ++ bd ++ r) =
    run (A StMultipartBoundaryCr 1 0 0) (l ++ map (FByte KMultipartData) d) r.
  Proof.
    intros NE. assert (CR : forall l, run (A StMultipartDataByLengthCr 1 0 0) l (crlf ++ bs "--" ++ bd ++ r) = run (A StMultipartBoundaryCr 1 0 0) l r).
    { intros l0. unfold crlf. cbn [app].
      rewrite (mkeep clen bd 1 0 0 StMultipartDataByLengthCr 13 [] StMultipartDataByLengthLf) by reflexivity.
      rewrite (mkeep clen bd 1 0 0 StMultipartDataByLengthLf 10 [] StMultipartHyphen1) by reflexivity.
      rewrite (boundary_bytes clen bd) by exact NE. now rewrite !app_nil_r. }
    revert l. induction d as [|b d IH]; intros l; cbn [map app].
    - rewrite app_nil_r. rewrite <- CR. reflexivity.
    - rewrite aexec_byte by reflexivity. unfold abyte. cbn [abyte_raw a_st]. unfold a_by_length. cbn [a_len].
      destruct (N.eqb_spec (N.of_nat (List.length (b :: d))) 0) as [E|_]; [cbn in E; lia|].
      destruct (N.eqb_spec (N.of_nat (List.length (b :: d))) 1) as [E|NE1].
      + destruct d; [|cbn [List.length] in E; lia]. cbn [app map]. rewrite <- CR. reflexivity.
      + replace (N.of_nat (List.length (b :: d)) - 1) with (N.of_nat (List.length d)) by (cbn [List.length]; lia).
        unfold st_len. cbn [nrm a_st a_len a_lo a_up]. rewrite IH. now rewrite <- app_assoc.
  Qed.

  Lemma parts_some l w e r : parts_as bd clen l w e -> w ++ r <> [].
  Proof. now intros []. Qed.

  Lemma parts_run l w e : parts_as bd clen l w e -> forall lo len r,
    finishes (run (A StMultipartBoundaryCr lo 0 len) l (w ++ r)) (l ++ e) r.
  Proof.
    induction 1 as [l|l x e d w e' X D P IH]; intros lo len r.
    - change (bs "--") with [45; 45]. cbn [app].
      rewrite (mkeep clen bd lo 0 len StMultipartBoundaryCr 45 [] StMultipartEnd) by reflexivity.
      rewrite (mkeep clen bd lo 0 len StMultipartEnd 45 [] StBodyFinished) by reflexivity.
      rewrite (aexec_eps _ _ _ (A StBodyFinished lo 0 len) _ _ [FEv EBodyFinished] (A StFinished lo 0 len)) by reflexivity.
      rewrite aexec_finished by reflexivity. eexists. split; [now rewrite !app_nil_r|reflexivity].
    - destruct (lines_run Multipart (Some bd) clen lo 0 len (fun _ _ _ => eq_refl) _ _ X) as (e1 & -> & R).
      unfold crlf at 1. rewrite <- !app_assoc. cbn [app].
      rewrite (mkeep clen bd lo 0 len StMultipartBoundaryCr 13 [FEv EMultipartBegin] StInitialLf) by reflexivity.
      rewrite (mkeep clen bd lo 0 len StInitialLf 10 [] StHeaderCr2) by reflexivity. rewrite R.
      rewrite (aexec_eps _ _ _ (A StHeaderEnd lo 0 len) _ _ [FEv EHeadersFinished] (A StMultipartDetectData lo 0 len)) by reflexivity.
      rewrite app_nil_r, <- !app_assoc. cbn [app] in *.
      destruct (clen (l ++ FEv EMultipartBegin :: e1 ++ [FEv EHeadersFinished])) as [n|] eqn:C.
      + rewrite (aexec_eps _ _ _ (A StMultipartDetectData lo 0 len) _ _ [FEv EContentLength] (A StMultipartDataByLength 1 0 n))
          by (cbn [aeps a_st]; rewrite C; reflexivity).
        subst n. rewrite length_run by exact (parts_some _ _ _ r P). specialize (IH 1 0 r).
        rewrite <- !app_assoc in *. cbn [app] in *. rewrite <- ?app_assoc in *. cbn [app] in *. exact IH.
      + rewrite (aexec_eps _ _ _ (A StMultipartDetectData lo 0 len) _ _ [FEv EContentLength] (A StMultipartDataByByte 0 0 len))
          by (cbn [aeps a_st]; rewrite C; reflexivity).
        unfold crlf. cbn [app]. rewrite delimited_run by exact D.
        rewrite (mkeep clen bd 0 0 len StMultipartDataByByte 13 [] StMultipartDataByByteLf) by reflexivity.
        rewrite (mkeep clen bd 0 0 len StMultipartDataByByteLf 10 [] StMultipartHyphen1) by reflexivity.
        change (45 :: 45 :: bd ++ w ++ r) with (bs "--" ++ bd ++ w ++ r).
        rewrite (boundary_bytes clen bd) by exact (parts_some _ _ _ r P). rewrite !app_nil_r. specialize (IH 0 len r).
        rewrite <- !app_assoc in *. cbn [app] in *. rewrite <- ?app_assoc in *. cbn [app] in *. exact IH.
  Qed.

  Lemma multipart_run w e r : multipart_as bd clen w e ->
    finishes (run (A StMultipartHyphen1 1 0 0) [] (w ++ r)) e r.
  Proof.
    intros [w' e' H]. rewrite <- !app_assoc. rewrite (boundary_bytes clen bd) by exact (parts_some _ _ _ r H). exact (parts_run _ _ _ H 1 0 r).
  Qed.
End PartsRun.

Lemma multipart_exact h clen q bd segs tail L :
  (forall l, h_clen h l = clen (flat l)) ->
  ~ In 13 bd -> N.of_nat (List.length bd) <= 2 ^ 14 ->
  (exists p' log, feed h (set_boundary (init_multipart q) bd) segs = (p', log, tail, OFinished) /\ flat log = L) <->
  (exists w, List.concat segs = w ++ tail /\ multipart_as bd clen w L).
Proof.
  intros Hc C Len.
  destruct (list_eq_dec (list_eq_dec N.eq_dec) segs []) as [->|NE].
  { split; [intros (p' & log & X & _); now apply feed_nothing in X|].
    intros (w & X & Y). symmetry in X. apply app_eq_nil in X. destruct X as [-> ->]. inversion Y. }
  rewrite (feed_iff h clen); try assumption; try discriminate.
  - split.
    + apply (multipart_inv clen bd L tail).
    + intros (w & -> & H). apply (multipart_run clen bd C _ _ _ H).
  - constructor; try reflexivity; try discriminate; [left; reflexivity|]. intros _. now split.
Qed.
