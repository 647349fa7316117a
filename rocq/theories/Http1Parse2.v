(* What the automaton accepts, against the grammar of Http1Accept.v: chunked
   bodies. *)

From Coq Require Import NArith List Bool Arith String Lia.
From Verif Require Import Bytes ByteStream Http1Model Http1Base Http1Wp Http1Term Http1Spec Http1Sem
  Http1Sim Http1Step Http1Misc Http1Run Http1Client Http1Api Http1Protocol Http1Data Http1Wire
  Http1Round Http1Round2 Http1Accept Http1Parse.
Import ListNotations.
Local Open Scope N_scope.

Lemma hex_inv b : is_hex b = true -> hexdigit b.
Proof.
  unfold hexdigit, is_hex, is_digit. rewrite !orb_true_iff, !andb_true_iff, !N.leb_le. tauto.
Qed.

(* Equal up to association. *)
Ltac lists := unfold crlf; cbn [app]; repeat (progress (rewrite <- ?app_assoc; cbn [app])); reflexivity.

Section Chunks.
  Variables (clen : list fevent -> option N) (L : list fevent) (tail : list byte).
  Notation bd := (@None (list byte)).
  Notation go := (aexec Chunked bd clen).
  Notation run a l r := (finishes (aexec Chunked bd clen a l r) L tail).

  Lemma cno_end s l : needs_byte s = true -> forall lo up len, ~ run (A s lo up len) l [].
  Proof.
    intros N lo up len F. apply finishes_step in F; [|exact N]. destruct F as (? & ? & ? & ? & X & _). discriminate X.
  Qed.

  (* the state after an extension *)
  Definition next_state (c : byte) : pstate :=
    if c =? 13 then StChunkExtensionsFinished else StStripChunkExtensionName.

  Lemma xtext_inv len : forall r m l, run (A (xstate m) 0 0 len) l r ->
    exists v c r', field_text_ok m v = true /\ no_bare_semicolon m v = true /\ (c = 13 \/ c = 59) /\ r = v ++ c :: r' /\
      run (A (next_state c) 0 0 len) (l ++ map (FByte KChunkExtValue) (unquoted m v) ++ [FEv EChunkExtFinished]) r'.
  Proof.
    induction r as [|b r IH]; intros m l F; [apply cno_end in F; [contradiction|now destruct m]|].
    apply finishes_step in F; [|now destruct m].
    destruct F as (b' & r' & ev & a & [= <- <-] & R & F).
    assert (C : (m = Plain /\ (b = 13 \/ b = 59) /\ ev = [FEv EChunkExtFinished] /\ a = A (next_state b) 0 0 len) \/
                exists m', a = A (xstate m') 0 0 len /\
                  forall v, field_text_ok m' v = true -> no_bare_semicolon m' v = true ->
                    field_text_ok m (b :: v) = true /\ no_bare_semicolon m (b :: v) = true /\
                    map (FByte KChunkExtValue) (unquoted m (b :: v)) = ev ++ map (FByte KChunkExtValue) (unquoted m' v)).
    { destruct m; cbn [abyte_raw a_st xstate] in R.
      - unfold a_ext_value, by_table, a_ext_finished in R. destruct (is_header_field b) as [[]|] eqn:T; try discriminate R.
        + destruct (N.eqb_spec b 59) as [->|N].
          * left. injection R as <- <-. now repeat split; auto.
          * right. injection R as <- <-. exists Plain. split; [reflexivity|]. intros v H1 H2.
            destruct (field_is _ T) as [X1 X2]. cbn [field_text_ok no_bare_semicolon unquoted].
            apply N.eqb_neq in X2, N. rewrite X2, X1, N, H1, H2. now repeat split.
        + destruct ((b =? 13) || (b =? 59)) eqn:E.
          * left. injection R as <- <-. repeat split. now known; auto.
          * destruct (N.eqb_spec b 34) as [->|]; [|discriminate R]. right. injection R as <- <-. exists Quoted.
            split; [reflexivity|]. intros v H1 H2. now repeat split.
      - unfold a_ext_quoted, by_table in R. destruct (is_quoted_header_field b) as [[]|] eqn:T; try discriminate R.
        + right. injection R as <- <-. exists Quoted. split; [reflexivity|]. intros v H1 H2.
          destruct (quoted_is _ T) as (X1 & X2 & X3). cbn [field_text_ok no_bare_semicolon unquoted].
          apply N.eqb_neq in X2, X3. rewrite X2, X3, X1, H1, H2. now repeat split.
        + destruct (N.eqb_spec b 34) as [->|N1].
          * right. injection R as <- <-. exists Plain. split; [reflexivity|]. intros v H1 H2. now repeat split.
          * destruct (N.eqb_spec b 92) as [->|]; [|discriminate R]. right. injection R as <- <-. exists Escaped.
            split; [reflexivity|]. intros v H1 H2. now repeat split.
      - unfold a_ext_escaped in R. destruct (is_escapable b) eqn:T; [|discriminate R].
        right. injection R as <- <-. exists Quoted. split; [reflexivity|]. intros v H1 H2.
        cbn [field_text_ok no_bare_semicolon unquoted]. rewrite H1, H2.
        unfold is_escapable in T. rewrite andb_true_iff, !N.ltb_lt in T.
        replace (32 <=? b) with true by (symmetry; apply N.leb_le; unfold byte in *; lia).
        replace (b <=? 122) with true by (symmetry; apply N.leb_le; unfold byte in *; lia).
        now repeat split. }
    destruct C as [(-> & Cb & -> & ->)|(m' & -> & C)].
    - exists [], b, r. cbn [nrm a_st a_len] in F. repeat split; assumption.
    - cbn [nrm a_st a_len] in F. destruct (IH _ _ F) as (v & c & r' & V1 & V2 & Cc & -> & G).
      destruct (C v V1 V2) as (C1 & C2 & C3).
      exists (b :: v), c, r'. repeat split; try assumption. rewrite C3. rewrite <- !app_assoc in *. exact G.
  Qed.

  Lemma xvalue_inv len : forall r l, run (A StStripChunkExtensionValue 0 0 len) l r ->
    exists p v c r', padding p /\ (v = [] \/ starts_visible v) /\ (c = 13 -> v <> []) /\
      field_text_ok Plain v = true /\ no_bare_semicolon Plain v = true /\ (c = 13 \/ c = 59) /\ r = p ++ v ++ c :: r' /\
      run (A (next_state c) 0 0 len) (l ++ map (FByte KChunkExtValue) (unquoted Plain v) ++ [FEv EChunkExtFinished]) r'.
  Proof.
    induction r as [|b r IH]; intros l F; [now apply cno_end in F|].
    pose proof F as F0. apply finishes_step in F; [|reflexivity].
    destruct F as (b' & r' & ev & a & [= <- <-] & R & F).
    cbn [abyte_raw a_st] in R. unfold a_strip in R.
    destruct ((b =? 32) || (b =? 9)) eqn:W.
    - injection R as <- <-. rewrite app_nil_r in F.
      destruct (IH _ F) as (p & v & c & r' & P & V & N & T & B & C & -> & G).
      exists (b :: p), v, c, r'. repeat split; try assumption. constructor; [|exact P]. now known; subst; auto.
    - destruct (is_visible_7bit b) eqn:V; [|discriminate R].
      assert (F1 : run (A (xstate Plain) 0 0 len) l (b :: r)).
      { unfold finishes. rewrite aexec_byte by reflexivity. unfold abyte. cbn [abyte_raw a_st xstate].
        change (a_ext_value (A StChunkExtensionValue 0 0 len) b) with (a_ext_value (A StStripChunkExtensionValue 0 0 len) b). rewrite R. exact F. }
      destruct (xtext_inv _ _ _ _ F1) as (v & c & r' & T & B & C & E & G).
      exists [], v, c, r'. repeat split; try assumption.
      + constructor.
      + destruct v as [|c' v]; [now left|right]. injection E as <- _. exact V.
      + intros -> ->. injection E as -> _. discriminate V.
  Qed.

  (* a name, and what follows *)
  Definition after_name (len : N) (n : list byte) (l : list fevent) (r : list byte) : Prop :=
    (exists r', r = 61 :: r' /\ run (A StStripChunkExtensionValue 0 0 len) (l ++ map (FByte KChunkExtName) (map lower_case n)) r') \/
    (exists c r', (c = 13 \/ c = 59) /\ r = c :: r' /\
       run (A (next_state c) 0 0 len) (l ++ map (FByte KChunkExtName) (map lower_case n) ++ [FEv EChunkExtFinished]) r').

  Lemma xname_inv len : forall r l, run (A StLowerChunkExtensionName 0 0 len) l r ->
    exists n r', Forall (fun b => tchar b = true) n /\ r = n ++ r' /\ after_name len n l r'.
  Proof.
    induction r as [|b r IH]; intros l F; [now apply cno_end in F|].
    apply finishes_step in F; [|reflexivity].
    destruct F as (b' & r' & ev & a & [= <- <-] & R & F). cbn [abyte_raw a_st] in R.
    unfold a_ext_name, by_table, a_ext_finished in R. destruct (is_token b) as [[]|] eqn:T; try discriminate R.
    - assert (X : ev = [FByte KChunkExtName (lower_case b)] /\ a = A StLowerChunkExtensionName 0 0 len).
      { rewrite <- tchar_lower. destruct (is_upper b); injection R as <- <-; now split. }
      destruct X as [-> ->]. destruct (IH _ F) as (n & r' & N & -> & G). exists (b :: n), r'.
      repeat split; [constructor; [now apply token_tchar|exact N]|].
      destruct G as [(r2 & -> & G)|(c & r2 & C & -> & G)]; [left; exists r2|right; exists c, r2]; repeat split; try assumption;
        cbn [map]; rewrite <- !app_assoc in G; exact G.
    - exists [], (b :: r). split; [constructor|]. split; [reflexivity|]. destruct (N.eqb_spec b 61) as [->|N].
      + left. injection R as <- <-. exists r. split; [reflexivity|exact F].
      + destruct ((b =? 13) || (b =? 59)) eqn:E; [|discriminate R]. right. injection R as <- <-.
        exists b, r. repeat split; [now known; auto|exact F].
  Qed.

  Lemma ext_inv len : forall r l, run (A StStripChunkExtensionName 0 0 len) l r ->
    exists w e c r', extension_as (c =? 13) (59 :: w) e /\ (c = 13 \/ c = 59) /\ r = w ++ c :: r' /\
      run (A (next_state c) 0 0 len) (l ++ e) r'.
  Proof.
    assert (X : forall r l, run (A StStripChunkExtensionName 0 0 len) l r ->
      exists p b r', padding p /\ is_visible_7bit b = true /\ r = p ++ b :: r' /\ run (A StLowerChunkExtensionName 0 0 len) l (b :: r')).
    { induction r as [|b r IH]; intros l F; [now apply cno_end in F|].
      apply finishes_step in F; [|reflexivity].
      destruct F as (b' & r' & ev & a & [= <- <-] & R & F).
      cbn [abyte_raw a_st] in R. unfold a_strip in R.
      destruct ((b =? 32) || (b =? 9)) eqn:W.
      - injection R as <- <-. rewrite app_nil_r in F.
        destruct (IH _ F) as (p & c & r' & P & V & -> & G).
        exists (b :: p), c, r'. repeat split; try assumption. constructor; [|exact P]. now known; subst; auto.
      - destruct (is_visible_7bit b) eqn:V; [|discriminate R]. exists [], b, r. repeat split; [constructor|assumption|].
        unfold finishes. rewrite aexec_byte by reflexivity. unfold abyte. cbn [abyte_raw a_st xstate].
        change (a_ext_name (A StLowerChunkExtensionName 0 0 len) b) with (a_ext_name (A StStripChunkExtensionName 0 0 len) b). rewrite R. exact F. }
    intros r l F. destruct (X _ _ F) as (p & b & r' & P & V & -> & G). clear X F.
    destruct (xname_inv _ _ _ G) as (n & r2 & N & E & [(r3 & -> & G2)|(c & r3 & C & -> & G2)]).
    - destruct (xvalue_inv _ _ _ G2) as (p' & v & c & r4 & P' & V' & Nv & T & B & C & -> & G3).
      exists (p ++ n ++ [61] ++ p' ++ v), (map (FByte KChunkExtName) (map lower_case n) ++
       map (FByte KChunkExtValue) (unquoted Plain v) ++ [FEv EChunkExtFinished]), c, r4. repeat split.
      + apply (ext_both (c =? 13) p n p' v); try assumption. intros X. apply N.eqb_eq in X. now apply Nv.
      + assumption.
      + rewrite E. rewrite <- !app_assoc. cbn [app]. now rewrite <- ?app_assoc.
      + rewrite <- !app_assoc in G3. exact G3.
    - exists (p ++ n), (map (FByte KChunkExtName) (map lower_case n) ++ [FEv EChunkExtFinished]), c, r3. repeat split.
      + apply (ext_only (c =? 13) p n); try assumption. intros X ->. apply N.eqb_eq in X. subst c. injection E as -> _. discriminate V.
      + assumption.
      + rewrite E. now rewrite <- !app_assoc.
      + exact G2.
  Qed.

  Lemma exts_inv len : forall k r l, (List.length r <= k)%nat -> run (A StStripChunkExtensionName 0 0 len) l r ->
    exists w e r', extensions_as (59 :: w) e /\ r = w ++ 13 :: r' /\ run (A StChunkExtensionsFinished 0 0 len) (l ++ e) r'.
  Proof.
    induction k as [|k IH]; intros r l Len F.
    - destruct r; [now apply cno_end in F|cbn in Len; lia].
    - destruct (ext_inv _ _ _ F) as (w & e & c & r' & W & [-> | ->] & -> & G).
      + exists w, e, r'. repeat split; [now constructor|exact G].
      + destruct (IH r' (l ++ e)) as (w' & e' & r2 & W' & -> & G'); [rewrite app_length in Len; cbn [List.length] in Len; unfold byte in *; lia|exact G|].
        exists (w ++ 59 :: w'), (e ++ e'), r2. repeat split.
        * apply (exts_more (59 :: w) e (59 :: w') e'); assumption.
        * now rewrite <- app_assoc.
        * now rewrite app_assoc.
  Qed.

  Lemma size_inv : forall r k len l, (k <= 7)%nat -> len < 16 ^ N.of_nat (k + 1) -> run (A (size_state k) 0 0 len) l r ->
    exists ds c r', (k + List.length ds <= 7)%nat /\ Forall hexdigit ds /\ (c = 13 \/ c = 59) /\ r = ds ++ c :: r' /\
      let n := fold_left (fun n d => 16 * n + hexval d) ds len in
      run (A (if c =? 59 then StStripChunkExtensionName else if n =? 0 then StHeaderLf1 else StChunkExtensionsFinished) 0 0 n)
          (l ++ [FEv (EChunkLength n)]) r'.
  Proof.
    induction r as [|b r IH]; intros k len l Hk B F.
    { apply cno_end in F; [contradiction|]. do 8 (destruct k as [|k]; [reflexivity|]). lia. }
    assert (P : len < 2 ^ 60).
    { eapply N.lt_le_trans; [exact B|]. change (2 ^ 60) with (16 ^ 15). apply N.pow_le_mono_r; lia. }
    apply finishes_step in F; [|do 8 (destruct k as [|k]; [reflexivity|]); lia].
    destruct F as (b' & r' & ev & a & [= <- <-] & R & F).
    assert (C : (k < 7)%nat /\ hexdigit b /\ ev = [] /\ a = A (size_state (S k)) 0 0 (16 * len + hexval b) \/
                a_chunk_cr (A (size_state k) 0 0 len) b = AGo ev a).
    { destruct (Nat.eq_dec k 7) as [->|Nk]; [right; exact R|].
      assert (Hk' : (k < 7)%nat) by lia. clear Hk Nk.
      assert (R' : a_chunk_n (A (size_state k) 0 0 len) (size_state (S k)) b = AGo ev a).
      { do 7 (destruct k as [|k]; [exact R|]). lia. }
      unfold a_chunk_n in R'. destruct (is_hex b) eqn:X; [|now right].
      left. injection R' as <- <-. apply hex_inv in X. repeat split; try assumption.
      unfold st_len. cbn [a_len a_lo a_up]. now rewrite push_hex_add. }
    destruct C as [(Hk' & X & -> & ->)|C].
    - cbn [nrm a_st a_len] in F. rewrite app_nil_r in F.
      destruct (IH (S k) (16 * len + hexval b) _ Hk' ltac:(
        replace (N.of_nat (S k + 1)) with (N.succ (N.of_nat (k + 1))) by lia;
        rewrite N.pow_succ_r'; pose proof (hexval_small _ X); lia) F) as (ds & c & r' & D1 & D2 & D3 & -> & G).
      exists (b :: ds), c, r'. cbn [List.length]. repeat split; [lia|now constructor|assumption|exact G].
    - unfold a_chunk_cr in C. cbn [a_len] in C.
      exists [], b, r. cbn [fold_left List.length app]. cbv zeta.
      destruct (N.eqb_spec b 13) as [->|N].
      + injection C as <- <-. repeat split; [lia|constructor|now left|].
        cbn [N.eqb Pos.eqb]. unfold st in F. cbn [a_lo a_up a_len nrm a_st] in F.
        destruct (len =? 0); exact F.
      + destruct (N.eqb_spec b 59) as [->|]; [|discriminate C]. injection C as <- <-.
        repeat split; [lia|constructor|now right|exact F].
  Qed.

  Lemma data_inv : forall r n l, run (A StChunkData 0 0 n) l r \/ (n = 0 /\ run (A StChunkDataCr 0 0 n) l r) ->
    exists d r', n = N.of_nat (List.length d) /\ r = d ++ crlf ++ r' /\ run (A StChunkLength1 0 0 0) (l ++ map (FByte KChunkData) d) r'.
  Proof.
    assert (CR : forall r l, run (A StChunkDataCr 0 0 0) l r -> exists r', r = crlf ++ r' /\ run (A StChunkLength1 0 0 0) l r').
    { intros r l F. step F b r'. cbn [nrm a_st a_lo a_up a_len] in F. step F b2 r2. known. subst. exists r2. rewrite !app_nil_r in F. split; [reflexivity|exact F]. }
    induction r as [|b r IH]; intros n l F; [destruct F as [F|[_ F]]; now apply cno_end in F|].
    destruct F as [F|[-> F]].
    - destruct (N.eq_dec n 0) as [->|NZ].
      + assert (F' : run (A StChunkDataCr 0 0 0) l (b :: r)).
        { unfold finishes in *. rewrite aexec_byte in * by reflexivity. exact F. }
        destruct (CR _ _ F') as (r' & -> & G). exists [], r'. cbn [map]. rewrite app_nil_r. now repeat split.
      + apply finishes_step in F; [|reflexivity]. destruct F as (b' & r' & ev & a & [= <- <-] & R & F).
        cbn [abyte_raw a_st] in R. unfold a_by_length in R. cbn [a_len] in R.
        pose proof NZ as NZ'. apply N.eqb_neq in NZ'. rewrite NZ' in R. injection R as <- <-.
        destruct (IH (n - 1) (l ++ [FByte KChunkData b])) as (d & r' & D & -> & G).
        { destruct (N.eqb_spec n 1) as [->|N1].
          - right. split; [reflexivity|exact F].
          - left. exact F. }
        exists (b :: d), r'. repeat split; [cbn [List.length]; lia|]. rewrite <- app_assoc in G. exact G.
    - destruct (CR _ _ F) as (r' & -> & G). exists [], r'. cbn [map]. rewrite app_nil_r. now repeat split.
  Qed.

  (* from the end of the extensions *)
  Lemma body_inv n r l : run (A StChunkExtensionsFinished 0 0 n) l r ->
    exists d r', n = N.of_nat (List.length d) /\ r = 10 :: d ++ crlf ++ r' /\
      run (A StChunkLength1 0 0 0) (l ++ [FEv EChunkExtsFinished] ++ map (FByte KChunkData) d) r'.
  Proof.
    intros F. apply (finishes_eps _ _ _ _ _ _ _ _ [FEv EChunkExtsFinished] (A StChunkLengthLf 0 0 n)) in F; [|reflexivity].
    step F b r'. known. subst. rewrite app_nil_r in F.
    destruct (data_inv _ _ _ (or_introl F)) as (d & r2 & D & -> & G). exists d, r2. repeat split; [assumption|].
    rewrite <- app_assoc in G. exact G.
  Qed.

  Lemma trailers_inv r l : run (A StHeaderLf1 0 0 0) l r ->
    exists x e, lines_as x e /\ r = 10 :: x ++ tail /\ L = l ++ e ++ [FEv EBodyFinished].
  Proof.
    intros F. step F b r'. known. subst. rewrite app_nil_r in F.
    destruct (lines_inv Chunked bd clen 0 0 0 (chunk_keeps 0) L tail (List.length r') _ _ (le_n _) F) as (w & e & r2 & W & -> & G).
    apply (finishes_eps _ _ _ _ _ _ _ _ [FEv EHeadersFinished] (A StBodyFinished 0 0 0)) in G; [|reflexivity].
    apply (finishes_eps _ _ _ _ _ _ _ _ [FEv EBodyFinished] (A StFinished 0 0 0)) in G; [|reflexivity].
    destruct G as (a & G & _). rewrite aexec_finished in G by reflexivity. injection G as <- _ ->.
    exists w, (e ++ [FEv EHeadersFinished]). repeat split; [exact W|]. now rewrite <- !app_assoc.
  Qed.

  Lemma chunk_inv r l : run (A StChunkLength1 0 0 0) l r ->
    (exists x e, lines_as x e /\ r = [48] ++ crlf ++ x ++ tail /\
       L = l ++ [FEv EChunkBegin; FEv (EChunkLength 0)] ++ e ++ [FEv EBodyFinished]) \/
    (exists w e r', chunk_as w e /\ r = w ++ r' /\ run (A StChunkLength1 0 0 0) (l ++ e) r').
  Proof.
    intros F. apply finishes_step in F; [|reflexivity]. destruct F as (b & r1 & ev & a & -> & R & F).
    cbn [abyte_raw a_st] in R. destruct (N.eqb_spec b 48) as [->|N].
    - injection R as <- <-. cbn [nrm st a_st a_len] in F.
      change (A (a_st _) 0 0 _) with (A (size_state 7) 0 0 0) in F.
      destruct (size_inv _ 7 0 _ (le_n _) ltac:(reflexivity) F) as (ds & c & r2 & D1 & D2 & D3 & -> & G).
      destruct ds; [|cbn in D1; lia]. cbn [fold_left app] in *. cbv zeta in G. destruct D3 as [-> | ->].
      + left. cbn in G. destruct (trailers_inv _ _ G) as (x & e & X & -> & ->).
        exists x, e. repeat split; [exact X|]. now rewrite <- !app_assoc.
      + right. cbn [N.eqb Pos.eqb] in G.
        destruct (exts_inv 0 _ _ _ (le_n _) G) as (w & e & r3 & W & -> & G2).
        destruct (body_inv _ _ _ G2) as (d & r4 & D & -> & G3).
        exists ([48] ++ (59 :: w) ++ crlf ++ d ++ crlf), ([FEv EChunkBegin; FEv (EChunkLength (hexadecimal [48]))] ++ e ++ [FEv EChunkExtsFinished] ++ map (FByte KChunkData) d), r4.
        repeat split.
        * apply chunk_ext; [now right|exact D|exact W].
        * lists.
        * rewrite <- !app_assoc in G3. exact G3.
    - destruct (is_hex b) eqn:X; [|discriminate R]. apply hex_inv in X. injection R as <- <-.
      rewrite hexdigit_to_byte in F by exact X.
      assert (NZ : hexval b <> 0).
      { unfold hexdigit, hexval, byte in *. destruct (N.leb_spec b 57), (N.leb_spec b 70); lia. }
      destruct (size_inv _ 0 (hexval b) _ (Nat.le_0_l _) ltac:(change (16 ^ N.of_nat (0 + 1)) with 16; now apply hexval_small) F) as (ds & c & r2 & D1 & D2 & D3 & -> & G).
      cbv zeta in G. right.
      assert (HX : fold_left (fun n d => 16 * n + hexval d) ds (hexval b) = hexadecimal (b :: ds)).
      { unfold hexadecimal. cbn [fold_left]. now rewrite N.mul_0_r, N.add_0_l. }
      assert (NX : hexadecimal (b :: ds) <> 0). { rewrite <- HX. pose proof (fold_ge ds (hexval b)). lia. }
      rewrite HX in G. apply N.eqb_neq in NX. rewrite NX in G.
      assert (SZ : chunk_size (b :: ds)). { repeat split; cbn [List.length hd]; try lia; try assumption; now constructor. }
      destruct D3 as [-> | ->]; cbn [N.eqb Pos.eqb] in G.
      + destruct (body_inv _ _ _ G) as (d & r4 & D & -> & G3).
        exists ((b :: ds) ++ crlf ++ d ++ crlf), ([FEv EChunkBegin; FEv (EChunkLength (hexadecimal (b :: ds))); FEv EChunkExtsFinished] ++ map (FByte KChunkData) d), r4.
        repeat split.
        * now apply chunk_plain.
        * lists.
        * rewrite <- !app_assoc in G3. exact G3.
      + destruct (exts_inv _ _ _ _ (le_n _) G) as (w & e & r3 & W & -> & G2).
        destruct (body_inv _ _ _ G2) as (d & r4 & D & -> & G3).
        exists ((b :: ds) ++ (59 :: w) ++ crlf ++ d ++ crlf), ([FEv EChunkBegin; FEv (EChunkLength (hexadecimal (b :: ds)))] ++ e ++ [FEv EChunkExtsFinished] ++ map (FByte KChunkData) d), r4.
        repeat split.
        * apply chunk_ext; [now left|exact D|exact W].
        * lists.
        * rewrite <- !app_assoc in G3. exact G3.
  Qed.

  Lemma chunk_nonempty w e : chunk_as w e -> w <> [].
  Proof.
    intros [ds d (S1 & _) _|ds x e' d S _ _].
    - destruct ds; [cbn in S1; lia|discriminate].
    - destruct S as [(S1 & _)| ->]; [destruct ds; [cbn in S1; lia|discriminate]|discriminate].
  Qed.

  Lemma chunked_inv : forall k r l, (List.length r <= k)%nat -> run (A StChunkLength1 0 0 0) l r ->
    exists w e, r = w ++ tail /\ chunked_as w e /\ L = l ++ e.
  Proof.
    induction k as [|k IH]; intros r l Len F.
    - destruct r; [now apply cno_end in F|cbn in Len; lia].
    - destruct (chunk_inv _ _ F) as [(x & e & X & -> & E)|(w & e & r' & W & -> & G)].
      + exists ([48] ++ crlf ++ x), ([FEv EChunkBegin; FEv (EChunkLength 0)] ++ e ++ [FEv EBodyFinished]).
        split; [lists|split; [now constructor|exact E]].
      + destruct (IH r' (l ++ e)) as (w' & e' & -> & W' & E).
        { pose proof (chunk_nonempty _ _ W). rewrite app_length in Len. destruct w; [congruence|]. cbn in Len. lia. }
        { exact G. }
        exists (w ++ w'), (e ++ e'). repeat split; [now rewrite app_assoc|now constructor|now rewrite app_assoc].
  Qed.
End Chunks.

(* ------------------------------------------------------------------ *)
(* The other direction                                                  *)
(* ------------------------------------------------------------------ *)

Section ChunksRun.
  Variables (clen : list fevent -> option N).
  Notation bd := (@None (list byte)).
  Notation run := (aexec Chunked bd clen).

  (* a state left by ';', a state left by CR *)
  Definition at_semi (len : N) (s : pstate) (ev : list fevent) : Prop :=
    needs_byte s = true /\ abyte_raw bd (A s 0 0 len) 59 = AGo ev (A StStripChunkExtensionName 0 0 len).
  Definition at_cr (len : N) (s : pstate) (ev : list fevent) : Prop :=
    needs_byte s = true /\ abyte_raw bd (A s 0 0 len) 13 = AGo ev (A StChunkExtensionsFinished 0 0 len).

  Lemma ext_run len last w e : extension_as last w e -> forall s ev, at_semi len s ev ->
    exists s' e', e = e' ++ [FEv EChunkExtFinished] /\ at_semi len s' [FEv EChunkExtFinished] /\
      (last = true -> at_cr len s' [FEv EChunkExtFinished]) /\
      forall l r, run (A s 0 0 len) l (w ++ r) = run (A s' 0 0 len) (l ++ ev ++ e') r.
  Proof.
    assert (NM : forall p n, padding p -> Forall (fun b => tchar b = true) n ->
              exists s', (s' = StStripChunkExtensionName /\ n = [] \/ s' = StLowerChunkExtensionName) /\
              forall s ev l r, at_semi len s ev ->
                run (A s 0 0 len) l ([59] ++ p ++ n ++ r) = run (A s' 0 0 len) (l ++ ev ++ map (FByte KChunkExtName) (map lower_case n)) r).
    { intros p n P N. destruct n as [|b n].
      - exists StStripChunkExtensionName. split; [now left|]. intros s ev l r [S1 S2]. cbn [app map].
        rewrite (ckeep clen len s 59 ev StStripChunkExtensionName) by (assumption || reflexivity).
        rewrite (xpad_bytes clen) by auto. now rewrite app_nil_r.
      - exists StLowerChunkExtensionName. split; [now right|]. intros s ev l r [S1 S2]. cbn [app].
        inversion N as [|? ? N1 N2]; subst.
        rewrite (ckeep clen len s 59 ev StStripChunkExtensionName) by (assumption || reflexivity).
        rewrite (xpad_bytes clen) by auto.
        rewrite (ckeep clen len StStripChunkExtensionName _ _ StLowerChunkExtensionName _ _ eq_refl eq_refl eq_refl (xname_raw len b StStripChunkExtensionName N1 (or_introl eq_refl))).
        rewrite xname_more by assumption. f_equal. cbn [map]. now rewrite <- !app_assoc. }
    intros [last0 p n P N Nn|last0 p n p' v P N P' V T B Nv] s ev S.
    - destruct (NM p n P N) as (s' & S' & R). exists s'. eexists. split; [reflexivity|]. split; [|split].
      + destruct S' as [[-> _] | ->]; split; reflexivity.
      + intros X. destruct S' as [[_ ->] | ->]; [now destruct (Nn X)|]. split; reflexivity.
      + intros l r. rewrite <- !app_assoc. now apply R.
    - destruct (NM p n P N) as (s' & S' & R).
      assert (V2 : exists s2, (s2 = StStripChunkExtensionValue /\ v = [] \/ s2 = StChunkExtensionValue) /\
                forall l r, run (A StStripChunkExtensionValue 0 0 len) l (p' ++ v ++ r) =
                            run (A s2 0 0 len) (l ++ map (FByte KChunkExtValue) (unquoted Plain v)) r).
      { destruct V as [-> |V].
        - exists StStripChunkExtensionValue. split; [now left|]. intros l r. cbn [app unquoted map].
          rewrite app_nil_r. now rewrite (xpad_bytes clen) by auto.
        - exists StChunkExtensionValue. split; [now right|]. intros l r.
          rewrite (xpad_bytes clen) by auto. now rewrite xvalue_bytes. }
      destruct V2 as (s2 & S2 & R2).
      exists s2, (map (FByte KChunkExtName) (map lower_case n) ++ map (FByte KChunkExtValue) (unquoted Plain v)).
      split; [now rewrite <- app_assoc|]. split; [|split].
      + destruct S2 as [[-> _] | ->]; split; reflexivity.
      + intros X. destruct S2 as [[_ ->] | ->]; [now destruct (Nv X)|]. split; reflexivity.
      + intros l r. rewrite <- !app_assoc. rewrite (R _ _ _ _ S). cbn [app].
        rewrite (ckeep clen len s' 61 [] StStripChunkExtensionValue) by (try reflexivity; destruct S' as [[-> _] | ->]; reflexivity).
        rewrite app_nil_r, R2. f_equal. now rewrite <- !app_assoc.
  Qed.

  Lemma exts_run len w e : extensions_as w e -> forall s ev l r, at_semi len s ev ->
    run (A s 0 0 len) l (w ++ 13 :: r) = run (A StChunkExtensionsFinished 0 0 len) (l ++ ev ++ e) r.
  Proof.
    induction 1 as [w e H|w e w' e' H _ IH]; intros s ev l r S;
      destruct (ext_run len _ _ _ H s ev S) as (s' & e1 & -> & S1 & S2 & R).
    - rewrite R. destruct (S2 eq_refl) as [X1 X2].
      rewrite (ckeep clen len s' 13 [FEv EChunkExtFinished] StChunkExtensionsFinished) by (assumption || reflexivity).
      f_equal. now rewrite <- !app_assoc.
    - rewrite <- app_assoc, R. rewrite (IH _ _ _ _ S1). f_equal. now rewrite <- !app_assoc.
  Qed.

  Lemma data_run d l r :
    run (A StChunkExtensionsFinished 0 0 (N.of_nat (List.length d))) l (10 :: d ++ crlf ++ r) =
    run (A StChunkLength1 0 0 0) (l ++ [FEv EChunkExtsFinished] ++ map (FByte KChunkData) d) r.
  Proof.
    set (n := N.of_nat (List.length d)).
    rewrite (aexec_eps _ _ _ (A StChunkExtensionsFinished 0 0 n) _ _ [FEv EChunkExtsFinished] (A StChunkLengthLf 0 0 n)) by reflexivity.
    rewrite (ckeep clen n StChunkLengthLf 10 [] StChunkData) by reflexivity. rewrite app_nil_r.
    assert (X : forall d l, run (A StChunkData 0 0 (N.of_nat (List.length d))) l (d ++ crlf ++ r) =
                            run (A StChunkLength1 0 0 0) (l ++ map (FByte KChunkData) d) r).
    { assert (CR : forall l, run (A StChunkDataCr 0 0 0) l (crlf ++ r) = run (A StChunkLength1 0 0 0) l r).
      { intros l0. unfold crlf. cbn [app].
        rewrite (ckeep clen 0 StChunkDataCr 13 [] StChunkDataLf) by reflexivity.
        rewrite (ckeep clen 0 StChunkDataLf 10 [] StChunkLength1) by reflexivity. now rewrite !app_nil_r. }
      clear d n l. induction d as [|b d IH]; intros l; cbn [map app].
      - rewrite app_nil_r. rewrite <- CR. reflexivity.
      - rewrite aexec_byte by reflexivity. unfold abyte. cbn [abyte_raw a_st]. unfold a_by_length. cbn [a_len].
        destruct (N.eqb_spec (N.of_nat (List.length (b :: d))) 0) as [E|_]; [cbn in E; lia|].
        destruct (N.eqb_spec (N.of_nat (List.length (b :: d))) 1) as [E|NE].
        + destruct d; [|cbn [List.length] in E; lia]. cbn [app map]. rewrite <- CR. reflexivity.
        + replace (N.of_nat (List.length (b :: d)) - 1) with (N.of_nat (List.length d)) by (cbn [List.length]; lia).
          unfold st_len. cbn [nrm a_st a_len a_lo a_up]. rewrite IH. now rewrite <- app_assoc. }
    subst n. rewrite X. now rewrite <- app_assoc.
  Qed.

  Lemma size_run ds l r : chunk_size ds ->
    exists k, run (A StChunkLength1 0 0 0) l (ds ++ r) = run (A (size_state k) 0 0 (hexadecimal ds)) (l ++ [FEv EChunkBegin]) r /\
      hexadecimal ds <> 0.
  Proof.
    intros (D1 & D2 & D3). destruct ds as [|b sz]; [cbn in D1; lia|]. cbn [hd List.length] in *.
    inversion D2 as [|? ? H5 H6]; subst. exists (List.length sz).
    assert (NZ : hexval b <> 0).
    { unfold hexdigit, hexval, byte in *. destruct (N.leb_spec b 57), (N.leb_spec b 70); lia. }
    assert (HX : hexadecimal (b :: sz) = fold_left (fun n d => 16 * n + hexval d) sz (hexval b)).
    { unfold hexadecimal. cbn [fold_left]. now rewrite N.mul_0_r, N.add_0_l. }
    rewrite HX. split.
    - cbn [app]. rewrite aexec_byte by reflexivity.
      assert (E : abyte Chunked bd (A StChunkLength1 0 0 0) b = AGo [FEv EChunkBegin] (A (size_state 0) 0 0 (hexval b))).
      { unfold abyte. cbn [abyte_raw a_st]. apply N.eqb_neq in D3.
        rewrite D3, hexdigit_is, hexdigit_to_byte by assumption. reflexivity. }
      rewrite E. rewrite size_more; [reflexivity|lia|assumption|pose proof (hexval_small _ H5); change (16 ^ N.of_nat (0 + 1)) with 16; lia].
    - pose proof (fold_ge sz (hexval b)). lia.
  Qed.

  Lemma chunk_run w e l r : chunk_as w e ->
    run (A StChunkLength1 0 0 0) l (w ++ r) = run (A StChunkLength1 0 0 0) (l ++ e) r.
  Proof.
    intros [ds d D1 D2|ds x e' d D1 D2 X].
    - rewrite <- !app_assoc. destruct (size_run ds l (crlf ++ d ++ crlf ++ r) D1) as (k & -> & NZ).
      destruct (size_sep k _ NZ) as (S1 & _ & S2). unfold crlf at 1. cbn [app].
      rewrite (ckeep clen _ (size_state k) 13 [FEv (EChunkLength (hexadecimal ds))] StChunkExtensionsFinished) by (assumption || reflexivity).
      rewrite D2, data_run. f_equal. now rewrite <- !app_assoc.
    - rewrite <- !app_assoc.
      assert (Y : exists s, at_semi (hexadecimal ds) s [FEv (EChunkLength (hexadecimal ds))] /\
                forall rr, run (A StChunkLength1 0 0 0) l (ds ++ rr) = run (A s 0 0 (hexadecimal ds)) (l ++ [FEv EChunkBegin]) rr).
      { destruct D1 as [D1| ->].
        - destruct (size_run ds l [] D1) as (k & _ & NZ). destruct (size_sep k _ NZ) as (S1 & S2 & _).
          exists (size_state (List.length ds - 1)). destruct (size_sep (List.length ds - 1) _ NZ) as (S3 & S4 & _). split; [now split|].
          clear k S1 S2. intros rr.
          destruct ds as [|b sz]; [destruct D1 as [D1 _]; cbn in D1; lia|]. destruct D1 as (D1 & D4 & D3).
          cbn [hd List.length] in *. inversion D4 as [|? ? H5 H6]; subst.
          replace (S (List.length sz) - 1)%nat with (List.length sz) by lia.
          assert (HX : hexadecimal (b :: sz) = fold_left (fun n d => 16 * n + hexval d) sz (hexval b)).
          { unfold hexadecimal. cbn [fold_left]. now rewrite N.mul_0_r, N.add_0_l. }
          rewrite HX. cbn [app]. rewrite aexec_byte by reflexivity.
          assert (E : abyte Chunked bd (A StChunkLength1 0 0 0) b = AGo [FEv EChunkBegin] (A (size_state 0) 0 0 (hexval b))).
          { unfold abyte. cbn [abyte_raw a_st]. apply N.eqb_neq in D3.
            rewrite D3, hexdigit_is, hexdigit_to_byte by assumption. reflexivity. }
          rewrite E. rewrite size_more; [reflexivity|lia|assumption|pose proof (hexval_small _ H5); change (16 ^ N.of_nat (0 + 1)) with 16; lia].
        - exists StChunkLengthCr. split; [split; reflexivity|]. intros rr. reflexivity. }
      destruct Y as (s & S & Y). rewrite Y. unfold crlf at 1. cbn [app].
      rewrite (exts_run _ _ _ X _ _ _ _ S). rewrite D2, data_run. f_equal. now rewrite <- !app_assoc.
  Qed.

  Lemma chunked_run w e : chunked_as w e -> forall l r,
    run (A StChunkLength1 0 0 0) l (w ++ r) = ADone (l ++ e) (A StFinished 0 0 0) r.
  Proof.
    induction 1 as [x e X|w e w' e' H _ IH]; intros l r.
    - destruct (lines_run Chunked bd clen 0 0 0 (chunk_keeps 0) _ _ X) as (e' & -> & R).
      unfold crlf. cbn [app].
      rewrite (ckeep clen 0 StChunkLength1 48 [FEv EChunkBegin] StChunkLengthCr) by reflexivity.
      rewrite (ckeep clen 0 StChunkLengthCr 13 [FEv (EChunkLength 0)] StHeaderLf1) by reflexivity.
      rewrite (ckeep clen 0 StHeaderLf1 10 [] StHeaderCr2) by reflexivity. rewrite R.
      rewrite (aexec_eps _ _ _ (A StHeaderEnd 0 0 0) _ _ [FEv EHeadersFinished] (A StBodyFinished 0 0 0)) by reflexivity.
      rewrite (aexec_eps _ _ _ (A StBodyFinished 0 0 0) _ _ [FEv EBodyFinished] (A StFinished 0 0 0)) by reflexivity.
      rewrite aexec_finished by reflexivity. f_equal. rewrite ?app_nil_r, <- !app_assoc. reflexivity.
    - rewrite <- app_assoc, (chunk_run _ _ _ _ H), IH. now rewrite app_assoc.
  Qed.
End ChunksRun.

Lemma chunked_exact h q segs tail L :
  (exists p' log, feed h (init_chunked q) segs = (p', log, tail, OFinished) /\ flat log = L) <->
  (exists w, List.concat segs = w ++ tail /\ chunked_as w L).
Proof.
  destruct (list_eq_dec (list_eq_dec N.eq_dec) segs []) as [->|NE].
  { split; [intros (p' & log & X & _); now apply feed_nothing in X|].
    intros (w & X & Y). symmetry in X. apply app_eq_nil in X. destruct X as [-> ->].
    pose proof (chunked_run (fun _ => None) [] L Y [] []) as Z. discriminate Z. }
  unfold feed. rewrite (client_no_clen h) by (reflexivity || discriminate).
  pose proof (feed_iff (no_clen h) (fun _ => None) (init_chunked q) segs L tail) as X. unfold feed in X. rewrite X; clear X;
    [|reflexivity| |assumption|discriminate].
  - split.
    + intros F. destruct (chunked_inv (fun _ => None) L tail _ _ [] (le_n _) F) as (w & e & W & E & ->). eauto.
    + intros (w & -> & H). eexists. split; [apply (chunked_run (fun _ => None) _ _ H [])|reflexivity].
  - constructor; try reflexivity; try discriminate. left; reflexivity.
Qed.
