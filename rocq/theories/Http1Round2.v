(* Round trips of bodies: chunked, multipart, URL-encoded. *)

From Coq Require Import NArith List Bool Arith String Lia.
From Verif Require Import Bytes ByteStream Http1Model Http1Base Http1Wp Http1Term Http1Spec Http1Sem
  Http1Sim Http1Step Http1Misc Http1Run Http1Client Http1Api Http1Protocol Http1Data Http1Wire Http1Round.
Import ListNotations.
Local Open Scope N_scope.

(* ------------------------------------------------------------------ *)
(* Hexadecimal                                                          *)
(* ------------------------------------------------------------------ *)

Lemma hexdigit_is b : hexdigit b -> is_hex b = true.
Proof.
  unfold hexdigit, is_hex, is_digit. intros H.
  rewrite !orb_true_iff, !andb_true_iff, !N.leb_le. unfold byte in *; lia.
Qed.

Lemma hexdigit_to_byte b : hexdigit b -> hex_to_byte b = hexval b.
Proof.
  unfold hexdigit, hex_to_byte, hexval, byte. intros H.
  destruct (N.ltb_spec 47 b), (N.ltb_spec b 58), (N.leb_spec b 57); cbn [andb]; try lia;
  destruct (N.ltb_spec 64 b), (N.ltb_spec b 91), (N.leb_spec b 70); cbn [andb]; lia.
Qed.

Lemma hexdigit_digit b : hexdigit b -> hex_digit b = Some (hexval b).
Proof.
  unfold hexdigit, hex_digit, hexval, is_digit, byte. intros H.
  destruct (N.leb_spec 48 b), (N.leb_spec b 57); cbn [andb]; try reflexivity; try lia;
  destruct (N.ltb_spec 64 b), (N.ltb_spec b 71), (N.leb_spec b 70); cbn [andb]; try reflexivity; try lia;
  destruct (N.ltb_spec 96 b), (N.ltb_spec b 103); cbn [andb]; try reflexivity; lia.
Qed.

Lemma hexval_small b : hexdigit b -> hexval b < 16.
Proof.
  unfold hexdigit, hexval, byte. intros H.
  destruct (N.leb_spec b 57), (N.leb_spec b 70); lia.
Qed.

Lemma lor_add16 a v : v < 16 -> N.lor (16 * a) v = 16 * a + v.
Proof.
  intros H.
  assert (Z : N.land (16 * a) v = 0).
  { apply N.bits_inj. intros i. rewrite N.land_spec, N.bits_0.
    destruct (N.lt_ge_cases i 4) as [L|L].
    - replace (16 * a) with (a * 2 ^ 4) by (change (2^4) with 16; lia).
      now rewrite N.mul_pow2_bits_low.
    - replace (N.testbit v i) with false; [apply andb_false_r|].
      symmetry. destruct (N.eq_dec v 0) as [->|NZ]; [apply N.bits_0|].
      apply N.bits_above_log2. apply N.log2_lt_pow2; [lia|].
      apply N.lt_le_trans with (2 ^ 4); [exact H|]. apply N.pow_le_mono_r; lia. }
  rewrite N.add_nocarry_lxor by exact Z. rewrite <- N.lxor_lor by exact Z. reflexivity.
Qed.

Lemma push_hex_add n b : n < 2 ^ 60 -> hexdigit b -> push_hex n b = 16 * n + hexval b.
Proof.
  intros L H. unfold push_hex. rewrite hexdigit_to_byte by assumption.
  rewrite N.shiftl_mul_pow2. rewrite N.mod_small.
  - change (2 ^ 4) with 16. rewrite N.mul_comm. apply lor_add16. now apply hexval_small.
  - replace (2 ^ 64) with (2 ^ 60 * 2 ^ 4) by reflexivity.
    apply N.mul_lt_mono_pos_r; [reflexivity|exact L].
Qed.

(* ------------------------------------------------------------------ *)
(* Chunked bodies                                                       *)
(* ------------------------------------------------------------------ *)

Section Chunked.
  Variables (clen : list fevent -> option N).
  Notation bd := (@None (list byte)).

  Lemma chunk_keeps len s : uses_lo s = false -> uses_up s = false -> nrm Chunked (A s 0 0 len) = A s 0 0 len.
  Proof. reflexivity. Qed.

  Lemma ckeep len s b ev s' l r :
    needs_byte s = true -> uses_lo s' = false -> uses_up s' = false ->
    abyte_raw bd (A s 0 0 len) b = AGo ev (A s' 0 0 len) ->
    aexec Chunked bd clen (A s 0 0 len) l (b :: r) = aexec Chunked bd clen (A s' 0 0 len) (l ++ ev) r.
  Proof. apply (keep Chunked). apply chunk_keeps. Qed.

  Definition size_state (k : nat) : pstate :=
    nth k [StChunkLength2; StChunkLength3; StChunkLength4; StChunkLength5; StChunkLength6; StChunkLength7; StChunkLength8] StChunkLengthCr.

  Lemma size_more ds : forall k len l r,
    (k + List.length ds <= 7)%nat -> Forall hexdigit ds -> len < 16 ^ N.of_nat (k + 1) ->
    aexec Chunked bd clen (A (size_state k) 0 0 len) l (ds ++ r) =
    aexec Chunked bd clen (A (size_state (k + List.length ds)) 0 0 (fold_left (fun n d => 16 * n + hexval d) ds len)) l r.
  Proof.
    induction ds as [|d ds IH]; intros k len l r L F B; cbn [app fold_left List.length] in *.
    - now rewrite Nat.add_0_r.
    - inversion F as [|? ? F1 F2]; subst.
      assert (P : len < 2 ^ 60).
      { eapply N.lt_le_trans; [exact B|]. change (2 ^ 60) with (16 ^ 15). apply N.pow_le_mono_r; lia. }
      assert (E : abyte Chunked bd (A (size_state k) 0 0 len) d = AGo [] (A (size_state (S k)) 0 0 (16 * len + hexval d))).
      { assert (Hk : (k < 7)%nat) by lia.
        do 7 (destruct k as [|k]; [unfold abyte; cbn [size_state nth abyte_raw a_st]; unfold a_chunk_n;
          rewrite hexdigit_is by assumption; cbn [a_len]; rewrite push_hex_add by assumption; reflexivity|]).
        lia. }
      rewrite aexec_byte by (assert (Hk : (k < 7)%nat) by lia; do 7 (destruct k as [|k]; [reflexivity|]); lia).
      rewrite E, app_nil_r. rewrite (IH (S k)).
      + now rewrite Nat.add_succ_r.
      + lia.
      + assumption.
      + replace (N.of_nat (S k + 1)) with (N.succ (N.of_nat (k + 1))) by lia.
        rewrite N.pow_succ_r'. pose proof (hexval_small _ F1). lia.
  Qed.

  Lemma fold_ge ds : forall n, n <= fold_left (fun n d => 16 * n + hexval d) ds n.
  Proof. induction ds as [|d ds IH]; intros n; cbn [fold_left]; [lia|]. specialize (IH (16 * n + hexval d)). lia. Qed.

  (* a state left by ';' or CR *)
  Definition at_sep (len : N) (s : pstate) (ev : list fevent) : Prop :=
    needs_byte s = true /\
    abyte_raw bd (A s 0 0 len) 59 = AGo ev (A StStripChunkExtensionName 0 0 len) /\
    abyte_raw bd (A s 0 0 len) 13 = AGo ev (A StChunkExtensionsFinished 0 0 len).

  Lemma size_sep k len : len <> 0 -> at_sep len (size_state k) [FEv (EChunkLength len)].
  Proof.
    intros N. unfold at_sep. apply N.eqb_neq in N.
    do 7 (destruct k as [|k]; [cbn [size_state nth abyte_raw a_st needs_byte]; unfold a_chunk_n, a_chunk_cr; cbn [is_hex is_digit a_len]; rewrite ?N; repeat split; reflexivity|]).
    destruct k; cbn [size_state nth abyte_raw a_st needs_byte]; unfold a_chunk_n, a_chunk_cr; cbn [is_hex is_digit a_len]; rewrite ?N; repeat split; reflexivity.
  Qed.

  Lemma xpad_bytes len st0 w : (st0 = StStripChunkExtensionName \/ st0 = StStripChunkExtensionValue) -> forall l r, padding w ->
    aexec Chunked bd clen (A st0 0 0 len) l (w ++ r) = aexec Chunked bd clen (A st0 0 0 len) l r.
  Proof.
    intros X l r F. apply aexec_loop_skip; [destruct X as [-> | ->]; reflexivity|].
    eapply Forall_impl; [|exact F]. intros b [-> | ->]; destruct X as [-> | ->]; reflexivity.
  Qed.

  Lemma xname_raw len b s : tchar b = true -> s = StStripChunkExtensionName \/ s = StLowerChunkExtensionName ->
    abyte_raw bd (A s 0 0 len) b = AGo [FByte KChunkExtName (lower_case b)] (A StLowerChunkExtensionName 0 0 len).
  Proof.
    intros H X.
    assert (E : a_ext_name (A s 0 0 len) b = AGo [FByte KChunkExtName (lower_case b)] (A StLowerChunkExtensionName 0 0 len)).
    { unfold a_ext_name, by_table. rewrite tchar_token, <- tchar_lower by assumption. destruct (is_upper b); reflexivity. }
    destruct X as [-> | ->]; cbn [abyte_raw a_st]; [|exact E].
    unfold a_strip. rewrite (tchar_not b 32), (tchar_not b 9) by (assumption || reflexivity). cbn [orb].
    rewrite tchar_visible by assumption. exact E.
  Qed.

  Lemma xname_more len n : forall l r, Forall (fun b => tchar b = true) n ->
    aexec Chunked bd clen (A StLowerChunkExtensionName 0 0 len) l (n ++ r) =
    aexec Chunked bd clen (A StLowerChunkExtensionName 0 0 len) (l ++ map (FByte KChunkExtName) (map lower_case n)) r.
  Proof.
    induction n as [|b n IH]; intros l r F; cbn [app map]; [now rewrite app_nil_r|].
    inversion F as [|? ? F1 F2]; subst.
    rewrite (ckeep len StLowerChunkExtensionName _ _ StLowerChunkExtensionName _ _ eq_refl eq_refl eq_refl (xname_raw len b _ F1 (or_intror eq_refl))).
    rewrite IH by assumption. now rewrite <- app_assoc.
  Qed.

  Definition xstate (m : qmode) : pstate :=
    match m with
    | Plain => StChunkExtensionValue
    | Quoted => StChunkExtensionQuotedValue
    | Escaped => StChunkExtensionEscapedValue
    end.

  Lemma xtext_step len m b v : field_text_ok m (b :: v) = true -> no_bare_semicolon m (b :: v) = true ->
    exists m' ev, abyte_raw bd (A (xstate m) 0 0 len) b = AGo ev (A (xstate m') 0 0 len) /\
      field_text_ok m' v = true /\ no_bare_semicolon m' v = true /\
      map (FByte KChunkExtValue) (unquoted m (b :: v)) = ev ++ map (FByte KChunkExtValue) (unquoted m' v).
  Proof.
    destruct m; cbn [field_text_ok no_bare_semicolon unquoted xstate abyte_raw a_st]; intros H1 H2.
    - destruct (N.eqb_spec b 34) as [->|N].
      + exists Quoted, []. repeat split; assumption.
      + apply andb_true_iff in H1, H2. destruct H1 as [H1 H3], H2 as [H2 H4].
        exists Plain, [FByte KChunkExtValue b]. repeat split; try assumption.
        unfold a_ext_value, by_table. rewrite field_byte_field by assumption.
        apply negb_true_iff in H2. now rewrite H2.
    - destruct (N.eqb_spec b 34) as [->|N]; [exists Plain, []; repeat split; assumption|].
      destruct (N.eqb_spec b 92) as [->|N']; [exists Escaped, []; repeat split; assumption|].
      apply andb_true_iff in H1. destruct H1 as [H1 H3].
      exists Quoted, [FByte KChunkExtValue b]. repeat split; try assumption.
      unfold a_ext_quoted, by_table. now rewrite field_byte_quoted.
    - apply andb_true_iff in H1. destruct H1 as [H1 H3].
      exists Quoted, [FByte KChunkExtValue b]. repeat split; try assumption.
      unfold a_ext_escaped, is_escapable. apply andb_true_iff in H1. destruct H1 as [H1 H4].
      apply N.leb_le in H1, H4.
      replace (31 <? b) with true by (symmetry; apply N.ltb_lt; unfold byte in *; lia).
      replace (b <? 123) with true by (symmetry; apply N.ltb_lt; unfold byte in *; lia).
      reflexivity.
  Qed.

  Lemma xtext_bytes len v : forall m l r, field_text_ok m v = true -> no_bare_semicolon m v = true ->
    aexec Chunked bd clen (A (xstate m) 0 0 len) l (v ++ r) =
    aexec Chunked bd clen (A StChunkExtensionValue 0 0 len) (l ++ map (FByte KChunkExtValue) (unquoted m v)) r.
  Proof.
    induction v as [|b v IH]; intros m l r H1 H2; cbn [app].
    - destruct m; try discriminate. cbn. now rewrite app_nil_r.
    - destruct (xtext_step len m b v H1 H2) as (m' & ev & E & H1' & H2' & U).
      rewrite (ckeep len (xstate m) b ev (xstate m')) by (exact E || (destruct m, m'; reflexivity)).
      rewrite IH by assumption. rewrite U, <- app_assoc. reflexivity.
  Qed.

  Lemma xvalue_bytes len v l r : starts_visible v -> field_text_ok Plain v = true -> no_bare_semicolon Plain v = true ->
    aexec Chunked bd clen (A StStripChunkExtensionValue 0 0 len) l (v ++ r) =
    aexec Chunked bd clen (A StChunkExtensionValue 0 0 len) (l ++ map (FByte KChunkExtValue) (unquoted Plain v)) r.
  Proof.
    intros V H1 H2. destruct v as [|b v]; [contradiction|]. cbn [app].
    destruct (xtext_step len Plain b v H1 H2) as (m' & ev & E & H1' & H2' & U).
    cbn [starts_visible] in V. change (is_visible_7bit b = true) in V.
    assert (V2 := V). unfold is_visible_7bit in V2. apply andb_true_iff in V2. destruct V2 as [V1 V2].
    apply N.leb_le in V1, V2.
    assert (E2 : abyte_raw bd (A StStripChunkExtensionValue 0 0 len) b = AGo ev (A (xstate m') 0 0 len)).
    { cbn [abyte_raw a_st xstate] in *. unfold a_strip.
      replace (b =? 32) with false by (symmetry; apply N.eqb_neq; unfold byte in *; lia).
      replace (b =? 9) with false by (symmetry; apply N.eqb_neq; unfold byte in *; lia).
      cbn [orb]. rewrite V. rewrite <- E. reflexivity. }
    rewrite (ckeep len StStripChunkExtensionValue b ev (xstate m')) by (exact E2 || (destruct m'; reflexivity)).
    rewrite xtext_bytes by assumption. rewrite U, <- app_assoc. reflexivity.
  Qed.

  Lemma exts_bytes len xs : forall s ev l r, at_sep len s ev -> Forall wf_ext xs ->
    aexec Chunked bd clen (A s 0 0 len) l (flat_map render_ext xs ++ 13 :: r) =
    aexec Chunked bd clen (A StChunkExtensionsFinished 0 0 len) (l ++ ev ++ flat_map seen_ext xs) r.
  Proof.
    induction xs as [|x xs IH]; intros s ev l r (N & E1 & E2) F; cbn [flat_map app].
    - rewrite (ckeep len s 13 ev StChunkExtensionsFinished) by (assumption || reflexivity). now rewrite app_nil_r.
    - inversion F as [|? ? (P & X1 & X2 & X3) F2]; subst. unfold render_ext, seen_ext.
      destruct x as [pad nm val]. cbn [x_pad x_name x_value] in *.
      rewrite <- !app_assoc. cbn [app].
      rewrite (ckeep len s 59 ev StStripChunkExtensionName) by (assumption || reflexivity).
      rewrite xpad_bytes by auto. destruct nm as [|b nm]; [congruence|].
      inversion X2 as [|? ? T1 T2]; subst. cbn [app].
      rewrite (ckeep len StStripChunkExtensionName _ _ StLowerChunkExtensionName _ _ eq_refl eq_refl eq_refl (xname_raw len b StStripChunkExtensionName T1 (or_introl eq_refl))).
      rewrite xname_more by assumption. destruct val as [[w v]|].
      + destruct X3 as (W & V1 & V2 & V3). rewrite <- !app_assoc. cbn [app].
        rewrite (ckeep len StLowerChunkExtensionName 61 [] StStripChunkExtensionValue) by reflexivity.
        rewrite <- !app_assoc. cbn [app].
        rewrite xpad_bytes by auto. rewrite xvalue_bytes by assumption.
        rewrite (IH _ [FEv EChunkExtFinished]) by (assumption || (repeat split; reflexivity)).
        f_equal. cbn [map app]. now rewrite ?app_nil_r, <- !app_assoc.
      + cbn [app]. rewrite (IH _ [FEv EChunkExtFinished]) by (assumption || (repeat split; reflexivity)).
        f_equal. cbn [map app]. now rewrite ?app_nil_r, <- !app_assoc.
  Qed.

  Lemma chunk_bytes c l r : wf_chunk c ->
    aexec Chunked bd clen (A StChunkLength1 0 0 0) l (render_chunk c ++ r) =
    aexec Chunked bd clen (A StChunkLength1 0 0 0) (l ++ seen_chunk c) r.
  Proof.
    intros (L & H1 & H2 & H3 & H4). destruct c as [sz xs d]. cbn [c_size c_exts c_data] in *.
    unfold render_chunk, seen_chunk. cbn [c_size c_exts c_data].
    destruct sz as [|b sz]; [cbn in L; lia|]. cbn [hd List.length] in *.
    inversion H1 as [|? ? H5 H6]; subst.
    unfold hexadecimal in H3. cbn [fold_left] in H3. rewrite N.mul_0_r, N.add_0_l in H3.
    assert (NZ : hexval b <> 0).
    { unfold hexdigit, hexval, byte in *. destruct (N.leb_spec b 57), (N.leb_spec b 70); lia. }
    rewrite <- !app_assoc. cbn [app].
    rewrite aexec_byte by reflexivity.
    assert (E : abyte Chunked bd (A StChunkLength1 0 0 0) b = AGo [FEv EChunkBegin] (A (size_state 0) 0 0 (hexval b))).
    { unfold abyte. cbn [abyte_raw a_st]. apply N.eqb_neq in H2.
      rewrite H2, hexdigit_is, hexdigit_to_byte by assumption. reflexivity. }
    rewrite E. rewrite size_more; [|lia|assumption|pose proof (hexval_small _ H5); change (16 ^ N.of_nat (0 + 1)) with 16; lia].
    rewrite H3. set (n := N.of_nat (List.length d)) in *.
    assert (Dn : n <> 0). { pose proof (fold_ge sz (hexval b)). lia. }
    unfold crlf at 1. cbn [app].
    rewrite (exts_bytes n xs _ [FEv (EChunkLength n)]) by (apply size_sep || idtac; assumption).
    rewrite (aexec_eps _ _ _ (A StChunkExtensionsFinished 0 0 n) _ _ [FEv EChunkExtsFinished] (A StChunkLengthLf 0 0 n)) by reflexivity.
    rewrite (ckeep n StChunkLengthLf 10 [] StChunkData) by reflexivity.
    assert (NEd : d ++ crlf ++ r <> []) by (destruct d; discriminate).
    rewrite (aexec_length_le clen Chunked bd KChunkData StChunkData StChunkDataCr 0 0);
      [|reflexivity|intros; unfold abyte; cbn [abyte_raw a_st]; unfold a_by_length; cbn [a_len]..| | |].
    - subst n. rewrite Nat2N.id.
      rewrite firstn_app, firstn_all, Nat.sub_diag, firstn_O, app_nil_r.
      rewrite skipn_app, skipn_all, Nat.sub_diag, skipn_O. unfold crlf. cbn [app].
      rewrite (ckeep 0 StChunkDataCr 13 [] StChunkDataLf) by reflexivity.
      rewrite (ckeep 0 StChunkDataLf 10 [] StChunkLength1) by reflexivity.
      f_equal. rewrite ?app_nil_r, <- !app_assoc. reflexivity.
    - destruct (N.eqb_spec len 0); [lia|]. destruct (N.eqb_spec len 1); [lia|]. reflexivity.
    - reflexivity.
    - reflexivity.
    - reflexivity.
    - assumption.
    - subst n. rewrite !app_length. lia.
  Qed.

  Lemma chunks_bytes cs : forall l r, Forall wf_chunk cs ->
    aexec Chunked bd clen (A StChunkLength1 0 0 0) l (flat_map render_chunk cs ++ r) =
    aexec Chunked bd clen (A StChunkLength1 0 0 0) (l ++ flat_map seen_chunk cs) r.
  Proof.
    induction cs as [|c cs IH]; intros l r F; cbn [flat_map app]; [now rewrite app_nil_r|].
    inversion F; subst. rewrite <- app_assoc, chunk_bytes, IH by assumption. now rewrite app_assoc.
  Qed.

  Lemma chunked_exec cs ts r : Forall wf_chunk cs -> Forall wf_header ts ->
    aexec Chunked bd clen (A StChunkLength1 0 0 0) [] (render_chunked cs ts ++ r) =
    ADone (seen_chunked cs ts) (A StFinished 0 0 0) r.
  Proof.
    intros F1 F2. unfold render_chunked, seen_chunked, crlf. rewrite <- !app_assoc. cbn [app].
    rewrite chunks_bytes by assumption.
    rewrite (ckeep 0 StChunkLength1 48 [FEv EChunkBegin] StChunkLengthCr) by reflexivity.
    rewrite (ckeep 0 StChunkLengthCr 13 [FEv (EChunkLength 0)] StHeaderLf1) by reflexivity.
    rewrite (ckeep 0 StHeaderLf1 10 [] StHeaderCr2) by reflexivity.
    rewrite (headers_bytes Chunked) by (apply chunk_keeps || assumption).
    rewrite (aexec_eps _ _ _ (A StHeaderEnd 0 0 0) _ _ [FEv EHeadersFinished] (A StBodyFinished 0 0 0)) by reflexivity.
    rewrite (aexec_eps _ _ _ (A StBodyFinished 0 0 0) _ _ [FEv EBodyFinished] (A StFinished 0 0 0)) by reflexivity.
    rewrite aexec_finished by reflexivity. f_equal. unfold seen_headers.
    rewrite ?app_nil_r, <- !app_assoc. reflexivity.
  Qed.
End Chunked.

Lemma chunked_round h q cs ts tail segs :
  Forall wf_chunk cs -> Forall wf_header ts -> List.concat segs = render_chunked cs ts ++ tail ->
  exists p' log, feed h (init_chunked q) segs = (p', log, tail, OFinished) /\ flat log = seen_chunked cs ts.
Proof.
  intros F1 F2 E.
  assert (NE : segs <> []).
  { intros ->. cbn in E. symmetry in E. apply app_eq_nil in E. destruct E as [E _].
    unfold render_chunked in E. apply app_eq_nil in E. destruct E as [_ E]. discriminate. }
  unfold feed. rewrite (client_no_clen h) by (reflexivity || discriminate).
  edestruct (feed_exact (no_clen h) (fun _ => None) (init_chunked q) segs) as (p' & log & F & L & _);
    [reflexivity| |assumption|discriminate| | |].
  - constructor; try reflexivity; try discriminate. left; reflexivity.
  - rewrite E. apply (chunked_exec (fun _ => None)); assumption.
  - reflexivity.
  - unfold feed in F. eauto.
Qed.

(* ------------------------------------------------------------------ *)
(* Multipart bodies                                                     *)
(* ------------------------------------------------------------------ *)

Section Multipart.
  Variables (clen : list fevent -> option N) (bd : list byte).
  Notation run := (aexec Multipart (Some bd) clen).

  Lemma mkeep lo up len s b ev s' l r :
    needs_byte s = true -> uses_lo s' = false -> uses_up s' = false ->
    abyte_raw (Some bd) (A s lo up len) b = AGo ev (A s' lo up len) ->
    run (A s lo up len) l (b :: r) = run (A s' lo up len) (l ++ ev) r.
  Proof. apply (keep Multipart). reflexivity. Qed.

  Lemma boundary_more x : forall (y : list byte) lo len l r, bd = y ++ x -> x <> [] ->
    run (A StMultipartBoundary lo (N.of_nat (List.length y)) len) l (x ++ r) = run (A StMultipartBoundaryCr lo 0 len) l r.
  Proof.
    induction x as [|b x IH]; intros y lo len l r E N; [congruence|]. cbn [app].
    rewrite aexec_byte by reflexivity. unfold abyte. cbn [abyte_raw a_st a_boundary a_up a_lo].
    rewrite Nat2N.id. rewrite E at 1. rewrite nth_error_app2, Nat.sub_diag by lia. cbn [nth_error].
    rewrite N.eqb_refl, E, app_length. cbn [List.length].
    destruct x as [|c x].
    - cbn [List.length]. replace (S (List.length y) =? List.length y + 1)%nat with true by (symmetry; apply Nat.eqb_eq; lia).
      cbn. rewrite app_nil_r. reflexivity.
    - cbn [List.length].
      replace (S (List.length y) =? List.length y + S (S (List.length x)))%nat with false by (symmetry; apply Nat.eqb_neq; lia). cbn [nrm].
      rewrite app_nil_r, <- E. rewrite <- (IH (y ++ [b]) lo len l r); [|now rewrite <- app_assoc|discriminate].
      rewrite app_length. cbn [List.length].
      replace (N.of_nat (List.length y + 1)) with (N.of_nat (List.length y) + 1) by lia. reflexivity.
  Qed.

  Lemma boundary_none lo len l r : bd = [] -> r <> [] ->
    run (A StMultipartBoundary lo 0 len) l r = run (A StMultipartBoundaryCr lo 0 len) l r.
  Proof.
    intros E NE. destruct r as [|b r]; [congruence|]. rewrite !aexec_byte by reflexivity.
    unfold abyte. cbn [abyte_raw a_st a_boundary a_up]. now rewrite E.
  Qed.

  Lemma boundary_bytes lo len l r :
    r <> [] ->
    run (A StMultipartHyphen1 lo 0 len) l (bs "--" ++ bd ++ r) = run (A StMultipartBoundaryCr lo 0 len) l r.
  Proof.
    intros NE. change (bs "--") with [45; 45]. cbn [app].
    rewrite (mkeep lo 0 len StMultipartHyphen1 45 [] StMultipartHyphen2) by reflexivity.
    rewrite (mkeep lo 0 len StMultipartHyphen2 45 [] StMultipartBoundary) by reflexivity.
    rewrite !app_nil_r. destruct (list_eq_dec N.eq_dec bd []) as [E|E]; [|now apply (boundary_more bd [])].
    rewrite E at 2. now apply boundary_none.
  Qed.

  Lemma tame_bytes n : forall d lo len l r, (List.length d <= n)%nat -> tame d = true ->
    run (A StMultipartDataByByte lo 0 len) l (d ++ r) =
    run (A StMultipartDataByByte lo 0 len) (l ++ map (FByte KMultipartData) d) r.
  Proof.
    induction n as [|n IH]; intros d lo len l r L T.
    - destruct d; [|cbn in L; lia]. cbn. now rewrite app_nil_r.
    - destruct d as [|b d]; [cbn; now rewrite app_nil_r|]. cbn [tame List.length] in *.
      apply andb_true_iff in T. destruct T as [T1 T2]. cbn [app].
      destruct (N.eqb_spec b 13) as [->|N].
      + destruct d as [|c d]; [discriminate|]. cbn [app].
        apply andb_true_iff in T1. destruct T1 as [T1 T3]. apply negb_true_iff in T1, T3.
        cbn [tame List.length] in *. apply andb_true_iff in T2. destruct T2 as [_ T2].
        rewrite (mkeep lo 0 len StMultipartDataByByte 13 [] StMultipartDataByByteLf) by reflexivity.
        rewrite (mkeep lo 0 len StMultipartDataByByteLf c (map (FByte KMultipartData) [13; c]) StMultipartDataByByte)
          by (try reflexivity; cbn [abyte_raw a_st]; now rewrite T1).
        rewrite IH by (assumption || lia). cbn [map]. now rewrite app_nil_r, <- !app_assoc.
      + apply N.eqb_neq in N.
        rewrite (mkeep lo 0 len StMultipartDataByByte b [FByte KMultipartData b] StMultipartDataByByte)
          by (try reflexivity; cbn [abyte_raw a_st]; unfold a_by_byte; now rewrite N).
        rewrite IH by (assumption || lia). cbn [map]. now rewrite <- !app_assoc.
  Qed.

  Lemma part_bytes p lo len l r : r <> [] -> wf_part p -> clen (l ++ seen_part_head p) = m_answer p ->
    exists lo' len',
    run (A StMultipartBoundaryCr lo 0 len) l (render_part bd p ++ r) =
    run (A StMultipartBoundaryCr lo' 0 len') (l ++ seen_part p) r.
  Proof.
    intros NE (F & D) C. unfold render_part, seen_part. rewrite <- !app_assoc. unfold crlf at 1. cbn [app].
    assert (X : forall rr, run (A StMultipartBoundaryCr lo 0 len) l (13 :: 10 :: render_headers (m_headers p) ++ rr) =
      run (A StMultipartDetectData lo 0 len) (l ++ seen_part_head p) rr).
    { intros rr.
      rewrite (mkeep lo 0 len StMultipartBoundaryCr 13 [FEv EMultipartBegin] StInitialLf) by reflexivity.
      rewrite (mkeep lo 0 len StInitialLf 10 [] StHeaderCr2) by reflexivity.
      rewrite (headers_bytes Multipart) by (reflexivity || assumption).
      rewrite (aexec_eps _ _ _ (A StHeaderEnd lo 0 len) _ _ [FEv EHeadersFinished] (A StMultipartDetectData lo 0 len)) by reflexivity.
      f_equal. unfold seen_part_head, seen_headers. now rewrite app_nil_r, <- !app_assoc. }
    rewrite X. destruct (m_answer p) as [n|].
    - exists 1, 0. subst n.
      rewrite (aexec_eps _ _ _ (A StMultipartDetectData lo 0 len) _ _ [FEv EContentLength] (A StMultipartDataByLength 1 0 (N.of_nat (List.length (m_data p)))))
        by (cbn [aeps a_st]; rewrite C; reflexivity).
      rewrite (aexec_length_le clen Multipart (Some bd) KMultipartData StMultipartDataByLength StMultipartDataByLengthCr 1 0);
        [|reflexivity|intros; unfold abyte; cbn [abyte_raw a_st]; unfold a_by_length; cbn [a_len]..| | |].
      + rewrite Nat2N.id.
        rewrite firstn_app, firstn_all, Nat.sub_diag, firstn_O, app_nil_r.
        rewrite skipn_app, skipn_all, Nat.sub_diag, skipn_O. unfold crlf. cbn [app].
        rewrite (mkeep 1 0 0 StMultipartDataByLengthCr 13 [] StMultipartDataByLengthLf) by reflexivity.
        rewrite (mkeep 1 0 0 StMultipartDataByLengthLf 10 [] StMultipartHyphen1) by reflexivity.
        rewrite boundary_bytes by exact NE. f_equal. now rewrite ?app_nil_r, <- !app_assoc.
      + destruct (N.eqb_spec len0 0); [lia|]. destruct (N.eqb_spec len0 1); [lia|]. reflexivity.
      + reflexivity.
      + reflexivity.
      + reflexivity.
      + destruct (m_data p); discriminate.
      + rewrite !app_length. lia.
    - exists 0, len.
      rewrite (aexec_eps _ _ _ (A StMultipartDetectData lo 0 len) _ _ [FEv EContentLength] (A StMultipartDataByByte 0 0 len))
        by (cbn [aeps a_st]; rewrite C; reflexivity).
      rewrite (tame_bytes (List.length (m_data p))) by (assumption || lia).
      unfold crlf. cbn [app].
      rewrite (mkeep 0 0 len StMultipartDataByByte 13 [] StMultipartDataByByteLf) by reflexivity.
      rewrite (mkeep 0 0 len StMultipartDataByByteLf 10 [] StMultipartHyphen1) by reflexivity.
      rewrite boundary_bytes by exact NE. f_equal. now rewrite ?app_nil_r, <- !app_assoc.
  Qed.

  Lemma parts_bytes ps : forall lo len l r, r <> [] -> Forall wf_part ps -> answers clen l ps ->
    exists lo' len',
    run (A StMultipartBoundaryCr lo 0 len) l (flat_map (render_part bd) ps ++ r) =
    run (A StMultipartBoundaryCr lo' 0 len') (l ++ flat_map seen_part ps) r.
  Proof.
    induction ps as [|p ps IH]; intros lo len l r NE F Q; cbn [flat_map app].
    - exists lo, len. now rewrite app_nil_r.
    - inversion F; subst. destruct Q as [Q1 Q2]. rewrite <- app_assoc.
      edestruct (part_bytes p lo len l (flat_map (render_part bd) ps ++ r)) as (lo1 & len1 & E1); [now destruct (flat_map (render_part bd) ps)|eassumption..|]. rewrite E1.
      edestruct (IH lo1 len1 (l ++ seen_part p) r NE) as (lo2 & len2 & E2); [eassumption..|].
      exists lo2, len2. rewrite E2. now rewrite app_assoc.
  Qed.

  Lemma multipart_exec ps r : Forall wf_part ps -> answers clen [] ps ->
    exists lo len, run (A StMultipartHyphen1 1 0 0) [] (render_multipart bd ps ++ r) =
      ADone (seen_multipart ps) (A StFinished lo 0 len) r.
  Proof.
    intros F Q. unfold render_multipart, seen_multipart. rewrite <- !app_assoc. rewrite boundary_bytes by now destruct (flat_map (render_part bd) ps).
    destruct (parts_bytes ps 1 0 [] (bs "--" ++ r) ltac:(discriminate) F Q) as (lo & len & E). exists lo, len.
    rewrite E. change (bs "--") with [45; 45]. cbn [app].
    rewrite (mkeep lo 0 len StMultipartBoundaryCr 45 [] StMultipartEnd) by reflexivity.
    rewrite (mkeep lo 0 len StMultipartEnd 45 [] StBodyFinished) by reflexivity.
    rewrite (aexec_eps _ _ _ (A StBodyFinished lo 0 len) _ _ [FEv EBodyFinished] (A StFinished lo 0 len)) by reflexivity.
    rewrite aexec_finished by reflexivity. now rewrite !app_nil_r.
  Qed.
End Multipart.

Lemma multipart_round h clen q bd ps tail segs :
  (forall l, h_clen h l = clen (flat l)) ->
  ~ In 13 bd -> N.of_nat (List.length bd) <= 2 ^ 14 ->
  Forall wf_part ps -> answers clen [] ps -> List.concat segs = render_multipart bd ps ++ tail ->
  exists p' log, feed h (set_boundary (init_multipart q) bd) segs = (p', log, tail, OFinished) /\
    flat log = seen_multipart ps.
Proof.
  intros Hc C L F Q E.
  assert (NE : segs <> []).
  { intros ->. cbn in E. discriminate. }
  destruct (multipart_exec clen bd ps tail F Q) as (lo & len & X).
  edestruct (feed_exact h clen (set_boundary (init_multipart q) bd) segs) as (p' & log & Y & Z & _);
    [exact Hc| |assumption|discriminate| | |].
  - constructor; try reflexivity; try discriminate; [left; reflexivity|]. intros _. now split.
  - rewrite E. exact X.
  - reflexivity.
  - eauto.
Qed.

(* ------------------------------------------------------------------ *)
(* URL-encoded bodies                                                   *)
(* ------------------------------------------------------------------ *)

Section Url.
  Variables (clen : list fevent -> option N).
  Notation run := (aexec UrlEncoded None clen).

  Lemma ukeep s b ev s' l r : needs_byte s = true -> uses_hex s' = false ->
    (exists lo up, abyte_raw None (A s 0 0 0) b = AGo ev (A s' lo up 0)) ->
    run (A s 0 0 0) l (b :: r) = run (A s' 0 0 0) (l ++ ev) r.
  Proof.
    intros N U (lo & up & E). rewrite aexec_byte by exact N. unfold abyte. rewrite E.
    cbn [nrm a_st]. now rewrite U.
  Qed.

  Lemma url_first b l r :
    run (A StFirstUrlEncodedName 0 0 0) l (b :: r) = run (A StUrlEncodedName 0 0 0) (l ++ [FEv EUrlBegin]) (b :: r).
  Proof.
    rewrite !aexec_byte by reflexivity. unfold abyte. cbn [abyte_raw a_st].
    assert (E : a_url_name (A StFirstUrlEncodedName 0 0 0) b = a_url_name (A StUrlEncodedName 0 0 0) b) by reflexivity.
    rewrite E. destruct (a_url_name (A StUrlEncodedName 0 0 0) b) eqn:X; cbn [with_ev].
    - now rewrite <- app_assoc.
    - now rewrite <- app_assoc.
    - unfold a_url_name in X. repeat match type of X with context [if ?c then _ else _] => destruct c end; discriminate.
  Qed.

  Lemma hex_byte x y : hexdigit x -> hexdigit y ->
    N.lor (16 * hexval x) (hexval y) mod 256 = 16 * hexval x + hexval y.
  Proof.
    intros Hx Hy. pose proof (hexval_small _ Hx). pose proof (hexval_small _ Hy).
    rewrite lor_add16 by assumption. apply N.mod_small. lia.
  Qed.

  Lemma not_special (b c : byte) : ~ In b (bs "%+=&;") -> In c (bs "%+=&;") -> (b =? c) = false.
  Proof. intros N I. apply N.eqb_neq. intros ->. contradiction. Qed.

  Lemma name_encoded d w : encodes d w -> forall l r,
    run (A StUrlEncodedName 0 0 0) l (w ++ r) = run (A StUrlEncodedName 0 0 0) (l ++ map (FByte KUrlName) d) r.
  Proof.
    induction 1 as [|b d w V S _ IH|d w _ IH|x y d w Hx Hy _ IH]; intros l r; cbn [app map].
    - now rewrite app_nil_r.
    - rewrite (ukeep StUrlEncodedName b [FByte KUrlName b] StUrlEncodedName); try reflexivity.
      + rewrite IH. now rewrite <- app_assoc.
      + exists 0, 0. cbn [abyte_raw a_st]. unfold a_url_name.
        rewrite !(not_special b) by (assumption || (cbn; tauto)). cbn [orb].
        change (is_visible_7bit b = true) in V. now rewrite V.
    - rewrite (ukeep StUrlEncodedName 43 [] StUrlEncodedNamePlus); try reflexivity; [|now exists 0, 0].
      rewrite (aexec_eps _ _ _ (A StUrlEncodedNamePlus 0 0 0) _ _ [FByte KUrlName 32] (A StUrlEncodedName 0 0 0)) by reflexivity.
      rewrite IH. now rewrite app_nil_r, <- app_assoc.
    - rewrite (ukeep StUrlEncodedName 37 [] StUrlEncodedNameHex1); try reflexivity; [|now exists 0, 0].
      rewrite aexec_byte by reflexivity. unfold abyte. cbn [abyte_raw a_st]. unfold a_hex1.
      rewrite hexdigit_digit by assumption. cbn [nrm st_up a_st a_lo a_up a_len uses_hex].
      rewrite aexec_byte by reflexivity. unfold abyte. cbn [abyte_raw a_st]. unfold a_hex2.
      rewrite hexdigit_digit by assumption. cbn [nrm st_lo a_st a_lo a_up a_len uses_hex].
      rewrite hex_byte by assumption. rewrite IH. now rewrite !app_nil_r, <- app_assoc.
  Qed.

  Lemma value_encoded d w : encodes d w -> forall l r,
    run (A StUrlEncodedValue 0 0 0) l (w ++ r) = run (A StUrlEncodedValue 0 0 0) (l ++ map (FByte KUrlValue) d) r.
  Proof.
    induction 1 as [|b d w V S _ IH|d w _ IH|x y d w Hx Hy _ IH]; intros l r; cbn [app map].
    - now rewrite app_nil_r.
    - rewrite (ukeep StUrlEncodedValue b [FByte KUrlValue b] StUrlEncodedValue); try reflexivity.
      + rewrite IH. now rewrite <- app_assoc.
      + exists 0, 0. cbn [abyte_raw a_st]. unfold a_url_value.
        rewrite !(not_special b) by (assumption || (cbn; tauto)). cbn [orb].
        change (is_visible_7bit b = true) in V. now rewrite V.
    - rewrite (ukeep StUrlEncodedValue 43 [] StUrlEncodedValuePlus); try reflexivity; [|now exists 0, 0].
      rewrite (aexec_eps _ _ _ (A StUrlEncodedValuePlus 0 0 0) _ _ [FByte KUrlValue 32] (A StUrlEncodedValue 0 0 0)) by reflexivity.
      rewrite IH. now rewrite app_nil_r, <- app_assoc.
    - rewrite (ukeep StUrlEncodedValue 37 [] StUrlEncodedValueHex1); try reflexivity; [|now exists 0, 0].
      rewrite aexec_byte by reflexivity. unfold abyte. cbn [abyte_raw a_st]. unfold a_hex1.
      rewrite hexdigit_digit by assumption. cbn [nrm st_up a_st a_lo a_up a_len uses_hex].
      rewrite aexec_byte by reflexivity. unfold abyte. cbn [abyte_raw a_st]. unfold a_hex2.
      rewrite hexdigit_digit by assumption. cbn [nrm st_lo a_st a_lo a_up a_len uses_hex].
      rewrite hex_byte by assumption. rewrite IH. now rewrite !app_nil_r, <- app_assoc.
  Qed.

  Lemma pair_bytes p w l r : pair_wire p w ->
    exists s, (s = StUrlEncodedName \/ s = StUrlEncodedValue) /\
    run (A StFirstUrlEncodedName 0 0 0) l (w ++ r) = run (A s 0 0 0) (l ++ seen_pair p) r.
  Proof.
    intros H. assert (W : exists b w', w = b :: w').
    { destruct H as [n w N _|n v w1 w2]; [destruct w; [congruence|eauto]|]. destruct w1; cbn; eauto. }
    destruct W as (b & w' & W). unfold seen_pair.
    assert (X : run (A StFirstUrlEncodedName 0 0 0) l (w ++ r) = run (A StUrlEncodedName 0 0 0) (l ++ [FEv EUrlBegin]) (w ++ r)).
    { rewrite W. cbn [app]. apply url_first. }
    rewrite X. clear b w' W X.
    destruct H as [n w N H|n v w1 w2 H1 H2]; cbn [fst snd].
    - exists StUrlEncodedName. split; [auto|]. rewrite (name_encoded _ _ H). now rewrite app_nil_r, <- !app_assoc.
    - exists StUrlEncodedValue. split; [auto|]. rewrite <- !app_assoc. rewrite (name_encoded _ _ H1). cbn [app].
      rewrite (ukeep StUrlEncodedName 61 [] StUrlEncodedValue); try reflexivity; [|now exists 0, 0].
      rewrite (value_encoded _ _ H2). now rewrite app_nil_r, <- !app_assoc.
  Qed.

  Lemma body_bytes ps w : body_wire ps w -> forall l,
    exists s, needs_byte s = true /\ s <> StFinished /\
    run (A StFirstUrlEncodedName 0 0 0) l w = ADone (l ++ flat_map seen_pair ps) (A s 0 0 0) [].
  Proof.
    induction 1 as [|p w H|p ps w1 sep w2 H Hs N _ IH]; intros l; cbn [flat_map].
    - exists StFirstUrlEncodedName. rewrite aexec_nil by reflexivity. rewrite app_nil_r. repeat split. discriminate.
    - destruct (pair_bytes p w l [] H) as (s & S & E). rewrite app_nil_r in E. rewrite E.
      exists s. rewrite aexec_nil by (destruct S as [-> | ->]; reflexivity). rewrite app_nil_r.
      destruct S as [-> | ->]; repeat split; discriminate.
    - destruct (pair_bytes p w1 l ([sep] ++ w2) H) as (s & S & E). rewrite E. cbn [app].
      rewrite (ukeep s sep [] StFirstUrlEncodedName);
        [|destruct S as [-> | ->]; reflexivity|reflexivity|
          exists 0, 0; destruct S as [-> | ->], Hs as [-> | ->]; reflexivity].
      rewrite app_nil_r. destruct (IH (l ++ seen_pair p)) as (s' & S' & N' & E').
      exists s'. rewrite E', <- app_assoc. auto.
  Qed.
End Url.

Lemma url_round h q ps w tail segs :
  body_wire ps w -> segs <> [] -> List.concat segs = w ++ tail ->
  exists p' log,
    feed h (set_length (init_url_encoded q) (N.of_nat (List.length w))) segs = (p', log, tail, OFinished) /\
    flat log = seen_pairs ps.
Proof.
  intros B NE E.
  unfold feed. rewrite (client_no_clen h) by (reflexivity || discriminate).
  destruct (body_bytes (fun _ => None) ps w B []) as (s & S & NF & X).
  edestruct (feed_exact (no_clen h) (fun _ => None) (set_length (init_url_encoded q) (N.of_nat (List.length w))) segs) as (p' & log & F & L & _);
    [reflexivity| |assumption|discriminate| | |].
  - constructor; try reflexivity; try discriminate. left; reflexivity.
  - rewrite E. cbn [rsem parser_type set_length with_length init_url_encoded reset with_type p_set_state].
    unfold rsem, usem. cbn [parser_type set_length with_length init_url_encoded reset with_type p_set_state plength].
    rewrite Nat2N.id. rewrite firstn_app, firstn_all, Nat.sub_diag, firstn_O, app_nil_r.
    rewrite skipn_app, skipn_all, Nat.sub_diag, skipn_O. cbn [app].
    match goal with |- context [psem ?c ?p ?l ?w] => replace (psem c p l w) with (aexec UrlEncoded None c (A StFirstUrlEncodedName 0 0 0) l w) by reflexivity end.
    rewrite X. cbn [a_st app].
    replace (List.length w <=? List.length (w ++ tail))%nat with true
      by (symmetry; apply Nat.leb_le; rewrite app_length; lia).
    destruct s; try discriminate S; try congruence; reflexivity.
  - reflexivity.
  - unfold feed in F. eauto.
Qed.

(* ------------------------------------------------------------------ *)
(* The boundary is required after data of declared length               *)
(* ------------------------------------------------------------------ *)

Lemma feed_fails h clen p segs l e y :
  (forall l, h_clen h l = clen (flat l)) ->
  rinv2 p (hd [] segs) (List.concat (tl segs)) -> segs <> [] -> state_fn p <> StDetect1 ->
  rsem clen p [] (List.concat segs) = AFail l e y ->
  exists p' log e', feed h p segs = (p', log, [], OError e') /\ same_kind e' e /\ nearly (flat log) l.
Proof.
  intros Hc I N D R.
  destruct (feed h p segs) as [[[p' log] rest'] o] eqn:E.
  assert (NF : o <> OFuel).
  { pose proof (feed_ends h p segs (ri2_state _ _ _ I)) as X. rewrite E in X. exact X. }
  assert (Re : forall e, o = OError e -> rest' = []).
  { unfold feed in E. clear -E. revert E. generalize (calls segs). intros n. revert p segs.
    generalize (@nil event).
    induction n as [|n IH]; intros lg p segs E; destruct segs as [|s segs]; cbn [client] in E;
      try (injection E as <- <- <- <-; discriminate).
    destruct (resume h p lg s) as [[p1 lg1] [[k|k|k]|e|f|]];
      try (injection E as <- <- <- <-; (discriminate || reflexivity)); eauto. }
  unfold feed in E.
  destruct (client_sim h clen Hc _ _ _ _ _ _ _ _ I (or_intror N) (fun X => match D X with end) E) as [P _].
  unfold client_post in P. cbn [flat flat_map] in P. rewrite R in P.
  destruct o.
  - destruct P as (P & _). discriminate.
  - destruct P as (P & _). discriminate.
  - destruct P as (x & e' & R' & [= -> -> ->] & S & Y). rewrite (Re _ eq_refl).
    exists p', log, e0. repeat split; assumption.
  - destruct P as (? & P & _). discriminate.
  - congruence.
Qed.

Section Required.
  Variables (clen : list fevent -> option N) (bd : list byte).
  Notation run := (aexec Multipart (Some bd) clen).

  Lemma bfail lo up len s b e l r : needs_byte s = true ->
    abyte_raw (Some bd) (A s lo up len) b = AErr e ->
    run (A s lo up len) l (b :: r) = AFail l e r.
  Proof. intros N E. rewrite aexec_byte by exact N. unfold abyte. rewrite E. now rewrite app_nil_r. Qed.

  Lemma boundary_required x : forall (y z : list byte) len l b r,
    bd = y ++ x ++ z -> z <> [] -> Some b <> nth_error z 0 ->
    run (A StMultipartBoundary 1 (N.of_nat (List.length y)) len) l (x ++ b :: r) = AFail l (ErMultipartBoundary b) r.
  Proof.
    induction x as [|c x IH]; intros y z len l b r E N NE; cbn [app].
    - destruct z as [|c z]; [congruence|]. cbn [nth_error] in NE.
      apply bfail; [reflexivity|]. cbn [abyte_raw a_st a_boundary a_up a_lo]. rewrite Nat2N.id.
      rewrite E at 1. cbn [app]. rewrite nth_error_app2, Nat.sub_diag by lia. cbn [nth_error].
      replace (b =? c) with false by (symmetry; apply N.eqb_neq; congruence). reflexivity.
    - rewrite aexec_byte by reflexivity. unfold abyte. cbn [abyte_raw a_st a_boundary a_up a_lo].
      rewrite Nat2N.id. rewrite E at 1. cbn [app]. rewrite nth_error_app2, Nat.sub_diag by lia. cbn [nth_error].
      rewrite N.eqb_refl, E, !app_length. cbn [List.length app].
      match goal with |- context [(S (List.length y) =? ?n)%nat] => replace (S (List.length y) =? n)%nat with false end;
        [|symmetry; apply Nat.eqb_neq; destruct z; cbn [List.length]; [congruence|lia]].
      cbn [nrm]. rewrite app_nil_r. change (y ++ c :: x ++ z) with (y ++ (c :: x) ++ z). rewrite <- E.
      rewrite <- (IH (y ++ [c]) z len l b r); [|now rewrite E, <- !app_assoc|assumption..].
      rewrite app_length. cbn [List.length].
      replace (N.of_nat (List.length y + 1)) with (N.of_nat (List.length y) + 1) by lia. reflexivity.
  Qed.

  (* x agrees with the delimiter up to its end, where the byte b differs *)
  Lemma delimiter_required x : forall z len l b r,
    crlf ++ bs "--" ++ bd = x ++ z -> z <> [] -> Some b <> nth_error z 0 ->
    run (A StMultipartDataByLengthCr 1 0 len) l (x ++ b :: r) = AFail l (ErMultipartBoundary b) r.
  Proof.
    intros z len l b r E N NE.
    unfold crlf in E. change (bs "--") with [45; 45] in E. cbn [app] in E.
    assert (W : forall c c', Some b <> nth_error (c :: c') 0 -> (b =? c) = false)
      by (intros c c' X; apply N.eqb_neq; cbn in X; congruence).
    destruct x as [|x1 x].
    { cbn [app] in *. subst z. apply bfail; [reflexivity|]. cbn [abyte_raw a_st]. unfold a_expect, a_hyphen. now rewrite (W _ _ NE). }
    injection E as <- E. cbn [app].
    rewrite (mkeep clen bd 1 0 len StMultipartDataByLengthCr 13 [] StMultipartDataByLengthLf) by reflexivity.
    rewrite app_nil_r. destruct x as [|x2 x].
    { cbn [app] in *. subst z. apply bfail; [reflexivity|]. cbn [abyte_raw a_st]. unfold a_expect, a_hyphen. now rewrite (W _ _ NE). }
    injection E as <- E. cbn [app].
    rewrite (mkeep clen bd 1 0 len StMultipartDataByLengthLf 10 [] StMultipartHyphen1) by reflexivity.
    rewrite app_nil_r. destruct x as [|x3 x].
    { cbn [app] in *. subst z. apply bfail; [reflexivity|]. cbn [abyte_raw a_st]. unfold a_expect, a_hyphen. now rewrite (W _ _ NE). }
    injection E as <- E. cbn [app].
    rewrite (mkeep clen bd 1 0 len StMultipartHyphen1 45 [] StMultipartHyphen2) by reflexivity.
    rewrite app_nil_r. destruct x as [|x4 x].
    { cbn [app] in *. subst z. apply bfail; [reflexivity|]. cbn [abyte_raw a_st]. unfold a_expect, a_hyphen. now rewrite (W _ _ NE). }
    injection E as <- E. cbn [app].
    rewrite (mkeep clen bd 1 0 len StMultipartHyphen2 45 [] StMultipartBoundary) by reflexivity.
    rewrite app_nil_r. now apply (boundary_required x [] z).
  Qed.

  Lemma required_exec ps p x z b r : Forall wf_part ps -> wf_part p -> m_answer p <> None ->
    answers clen [] (ps ++ [p]) ->
    crlf ++ bs "--" ++ bd = x ++ z -> z <> [] -> Some b <> nth_error z 0 ->
    run (A StMultipartHyphen1 1 0 0) []
      (bs "--" ++ bd ++ flat_map (render_part bd) ps ++ crlf ++ render_headers (m_headers p) ++ m_data p ++ x ++ b :: r) =
      AFail (flat_map seen_part ps ++ seen_part p) (ErMultipartBoundary b) r.
  Proof.
    intros F (Fp & D) Nn Q E N NE. rewrite boundary_bytes by now destruct (flat_map (render_part bd) ps).
    assert (Q2 : answers clen [] ps /\ clen (flat_map seen_part ps ++ seen_part_head p) = m_answer p).
    { clear -Q. change (answers clen [] ps /\ clen (([] ++ flat_map seen_part ps) ++ seen_part_head p) = m_answer p).
      revert Q. generalize (@nil fevent). induction ps as [|q ps IH]; intros l Q; cbn [answers app flat_map] in *.
      - rewrite app_nil_r. tauto.
      - destruct Q as [Q1 Q2]. apply IH in Q2. rewrite <- !app_assoc in *. tauto. }
    destruct Q2 as [Q1 Q2].
    destruct (parts_bytes clen bd ps 1 0 [] (crlf ++ render_headers (m_headers p) ++ m_data p ++ x ++ b :: r) ltac:(discriminate) F Q1) as (lo & len & X).
    rewrite X. cbn [app]. unfold crlf at 1. cbn [app].
    rewrite (mkeep clen bd lo 0 len StMultipartBoundaryCr 13 [FEv EMultipartBegin] StInitialLf) by reflexivity.
    rewrite (mkeep clen bd lo 0 len StInitialLf 10 [] StHeaderCr2) by reflexivity.
    rewrite (headers_bytes Multipart) by (reflexivity || assumption).
    rewrite (aexec_eps _ _ _ (A StHeaderEnd lo 0 len) _ _ [FEv EHeadersFinished] (A StMultipartDetectData lo 0 len)) by reflexivity.
    match goal with |- aexec _ _ _ _ ?l _ = _ => replace l with (flat_map seen_part ps ++ seen_part_head p) end.
    2:{ unfold seen_part_head, seen_headers. now rewrite ?app_nil_r, <- !app_assoc. }
    destruct (m_answer p) as [n|]; [|congruence]. subst n.
    rewrite (aexec_eps _ _ _ (A StMultipartDetectData lo 0 len) _ _ [FEv EContentLength] (A StMultipartDataByLength 1 0 (N.of_nat (List.length (m_data p)))))
      by (cbn [aeps a_st]; rewrite Q2; reflexivity).
    rewrite (aexec_length_le clen Multipart (Some bd) KMultipartData StMultipartDataByLength StMultipartDataByLengthCr 1 0);
      [|reflexivity|intros; unfold abyte; cbn [abyte_raw a_st]; unfold a_by_length; cbn [a_len]..| | |].
    - rewrite Nat2N.id.
      rewrite firstn_app, firstn_all, Nat.sub_diag, firstn_O, app_nil_r.
      rewrite skipn_app, skipn_all, Nat.sub_diag, skipn_O. cbn [app].
      rewrite (delimiter_required x z) by assumption.
      f_equal. unfold seen_part. now rewrite <- !app_assoc.
    - destruct (N.eqb_spec len0 0); [lia|]. destruct (N.eqb_spec len0 1); [lia|]. reflexivity.
    - reflexivity.
    - reflexivity.
    - reflexivity.
    - destruct (m_data p), x; discriminate.
    - rewrite !app_length. lia.
  Qed.
End Required.

Lemma multipart_required h clen q bd ps p x z b r segs :
  (forall l, h_clen h l = clen (flat l)) ->
  ~ In 13 bd -> N.of_nat (List.length bd) <= 2 ^ 14 ->
  Forall wf_part ps -> wf_part p -> m_answer p <> None -> answers clen [] (ps ++ [p]) ->
  crlf ++ bs "--" ++ bd = x ++ z -> z <> [] -> Some b <> nth_error z 0 ->
  List.concat segs = bs "--" ++ bd ++ flat_map (render_part bd) ps ++
                     crlf ++ render_headers (m_headers p) ++ m_data p ++ x ++ b :: r ->
  exists p' log b', feed h (set_boundary (init_multipart q) bd) segs = (p', log, [], OError (ErMultipartBoundary b')) /\
    nearly (flat log) (flat_map seen_part ps ++ seen_part p).
Proof.
  intros Hc C L F Fp Np Q E Nz Nb Es.
  assert (NE : segs <> []) by (intros ->; cbn in Es; discriminate).
  edestruct (feed_fails h clen (set_boundary (init_multipart q) bd) segs) as (p' & log & e' & Y & Z & P);
    [exact Hc| |assumption|discriminate| |].
  - constructor; try reflexivity; try discriminate; [left; reflexivity|]. intros _. now split.
  - rewrite Es. exact (required_exec clen bd ps p x z b r F Fp Np Q E Nz Nb).
  - destruct e'; cbn in Z; try (discriminate Z); try contradiction. eauto.
Qed.

Lemma no_cr_tame d : ~ In 13 d -> tame d = true.
Proof.
  induction d as [|b d IH]; intros N; [reflexivity|]. cbn [tame].
  destruct (N.eqb_spec b 13) as [->|NE]; [exfalso; apply N; now left|].
  apply IH. intros I. apply N. now right.
Qed.

Lemma answers_none ps : forall l, Forall (fun p => m_answer p = None) ps -> answers (fun _ => None) l ps.
Proof. induction ps as [|p ps IH]; intros l F; cbn; [exact I|]. inversion F; subst. split; auto. Qed.

Lemma multipart_round_none h q bd ps tail segs :
  (forall l, h_clen h l = None) ->
  ~ In 13 bd -> N.of_nat (List.length bd) <= 2 ^ 14 ->
  Forall (fun p => wf_part p /\ m_answer p = None) ps -> List.concat segs = render_multipart bd ps ++ tail ->
  exists p' log, feed h (set_boundary (init_multipart q) bd) segs = (p', log, tail, OFinished) /\
    flat log = seen_multipart ps.
Proof.
  intros Hc C L F E. apply (multipart_round h (fun _ => None)); auto.
  - eapply Forall_impl; [|exact F]. intros a [W1 W2]; assumption.
  - apply answers_none. eapply Forall_impl; [|exact F]. intros a [W1 W2]; assumption.
Qed.

Lemma multipart_round_no_cr h q bd ps tail segs :
  (forall l, h_clen h l = None) ->
  ~ In 13 bd -> N.of_nat (List.length bd) <= 2 ^ 14 ->
  Forall (fun p => Forall wf_header (fst p) /\ ~ In 13 (snd p)) ps ->
  List.concat segs = render_multipart bd (map plain_part ps) ++ tail ->
  exists p' log, feed h (set_boundary (init_multipart q) bd) segs = (p', log, tail, OFinished) /\
    flat log = seen_multipart (map plain_part ps).
Proof.
  intros Hc C L F E. apply multipart_round_none; auto. apply Forall_map.
  eapply Forall_impl; [|exact F]. intros [hs d] [F1 F2]. split; [|reflexivity].
  split; [exact F1|]. now apply no_cr_tame.
Qed.

(* Every list of pairs of byte strings can be written. *)
Lemma encodes_all d : Forall (fun b : byte => b < 256) d ->
  exists w, encodes d w /\ (d <> [] -> w <> []).
Proof.
  induction 1 as [|b d Hb _ (w & E & _)].
  - exists []. split; [constructor|congruence].
  - assert (X : forall v, v < 16 -> exists c : byte, hexdigit c /\ hexval c = v).
    { intros v Hv. destruct (N.lt_ge_cases v 10).
      - exists (48 + v). unfold hexdigit, hexval. split; [unfold byte; lia|].
        destruct (N.leb_spec (48 + v) 57); lia.
      - exists (55 + v). unfold hexdigit, hexval. split; [unfold byte; lia|].
        destruct (N.leb_spec (55 + v) 57), (N.leb_spec (55 + v) 70); lia. }
    unfold byte in b, Hb.
    destruct (X (b / 16)) as (x & Hx & Vx); [apply N.div_lt_upper_bound; lia|].
    destruct (X (b mod 16)) as (y & Hy & Vy); [apply N.mod_lt; lia|].
    exists (37 :: x :: y :: w). split; [|discriminate].
    replace b with (16 * hexval x + hexval y) by (rewrite Vx, Vy; symmetry; apply N.div_mod; lia).
    now constructor.
Qed.

Lemma body_wire_all ps :
  Forall (fun '(n, v) => Forall (fun b : byte => b < 256) n /\
                         match v with None => n <> [] | Some v => Forall (fun b : byte => b < 256) v end) ps ->
  exists w, body_wire ps w.
Proof.
  assert (P : forall n v, Forall (fun b : byte => b < 256) n /\
                match v with None => n <> [] | Some v => Forall (fun b : byte => b < 256) v end ->
                exists w, pair_wire (n, v) w).
  { intros n v [Hn Hv]. destruct (encodes_all n Hn) as (w & E & N). destruct v as [v|].
    - destruct (encodes_all v Hv) as (w2 & E2 & _). exists (w ++ [61] ++ w2). now constructor.
    - exists w. constructor; auto. }
  induction 1 as [|[n v] ps H _ (w & IH)]; [exists []; constructor|].
  destruct (P n v H) as (w1 & Hw). destruct ps as [|p ps].
  - exists w1. now constructor.
  - exists (w1 ++ [38] ++ w). constructor; auto. discriminate.
Qed.
