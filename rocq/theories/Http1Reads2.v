(* The automaton of Http1Sem.v understands every stream as the readers of
   Http1Reader.v do: chunked bodies. *)

From Coq Require Import NArith List Bool Arith String Lia.
From Verif Require Import Bytes ByteStream Http1Model Http1Base Http1Wp Http1Term Http1Spec Http1Sem
  Http1Sim Http1Step Http1Misc Http1Run Http1Client Http1Api Http1Protocol Http1Data Http1Wire
  Http1Round Http1Round2 Http1Accept Http1Parse Http1Parse2 Http1Reader Http1Reads.
Import ListNotations.
Local Open Scope N_scope.

Section Chunks.
  Variables (bd : option (list byte)) (clen : list fevent -> option N).
  Notation reads := (reads Chunked bd clen).
  Notation does := (does Chunked bd clen).
  Notation C s len := (A s 0 0 len).

  Definition ext_state (m : qmode) : pstate :=
    match m with Plain => StChunkExtensionValue | Quoted => StChunkExtensionQuotedValue | Escaped => StChunkExtensionEscapedValue end.
  Lemma ext_needs m : needs_byte (ext_state m) = true. Proof. now destruct m. Qed.

  Lemma field_small b : field_byte b = true -> (255 <=? b) = false.
  Proof. unfold field_byte. intros F. apply andb_true_iff in F. destruct F as [_ F]. apply N.ltb_lt in F. apply N.leb_gt. exact F. Qed.

  Lemma reads_ext_text len stop n : (forall b, b = 59 \/ b = 13 -> does (pred n) (a_ext_finished (C StChunkExtensionValue len) b) (stop b)) ->
    forall m, reads n (C (ext_state m) len) (ext_text m stop).
  Proof.
    intros S m l s. revert m l. induction s as [|b s IH]; intros m l L; cbn [ext_text].
    - apply shows_nil. now destruct m.
    - cbn [List.length] in L. rewrite aexec_byte by apply ext_needs. unfold abyte.
      assert (G : forall m' ev, shows (aexec Chunked bd clen (C (ext_state m') len) (l ++ ev) s) (ext_text m' stop (l ++ ev) s)).
      { intros m' ev. apply IH. lia. }
      assert (G0 : forall m', shows (aexec Chunked bd clen (C (ext_state m') len) (l ++ []) s) (ext_text m' stop l s)).
      { intros m'. rewrite app_nil_r. apply IH. lia. }
      destruct m; cbn [ext_state abyte_raw a_st].
      + unfold a_ext_value, by_table. classes. destruct (N.eqb_spec b 34) as [->|N34]; cbn [negb].
        { exact (G0 Quoted). }
        rewrite andb_true_r. destruct (N.eqb_spec b 59) as [->|N59]; cbn [orb].
        { change (255 <=? 59) with false. cbv iota. change (field_byte 59) with true. cbv iota.
          exact (S 59 (or_introl eq_refl) l s ltac:(lia)). }
        destruct (N.eqb_spec b 13) as [->|N13]; cbn [orb].
        { change (255 <=? 13) with false. cbv iota. change (field_byte 13) with false. cbv iota.
          exact (S 13 (or_intror eq_refl) l s ltac:(lia)). }
        destruct (field_byte b) eqn:F.
        { rewrite (field_small _ F). exact (G Plain _). }
        destruct (255 <=? b); cbn; [reflexivity|rewrite app_nil_r; eexists; reflexivity].
      + unfold a_ext_quoted, by_table. classes. destruct (N.eqb_spec b 34) as [->|N34]; cbn [negb].
        { exact (G0 Plain). }
        destruct (N.eqb_spec b 92) as [->|N92]; cbn [negb].
        { exact (G0 Escaped). }
        rewrite !andb_true_r. destruct (field_byte b) eqn:F.
        { rewrite (field_small _ F). exact (G Quoted _). }
        destruct (255 <=? b); cbn; [reflexivity|rewrite app_nil_r; eexists; reflexivity].
      + unfold a_ext_escaped. classes. destruct ((32 <=? b) && (b <=? 122)).
        { exact (G Quoted _). }
        cbn. rewrite app_nil_r; eexists; reflexivity.
  Qed.

  Lemma reads_extensions len k n0 : reads (pred n0) (C StChunkExtensionsFinished len) k ->
    reads n0 (C StStripChunkExtensionName len) (extensions k).
  Proof.
    intros K. apply (reads_repeating_upto _ _ _ (at_ := StStripChunkExtensionName)); [reflexivity|reflexivity|]. intros n again L R. cbv zeta.
    set (ended := fun b => say [FEv EChunkExtFinished] (if b =? 13 then k else again)).
    assert (En : forall m s b, (m <= n)%nat -> b = 59 \/ b = 13 -> does m (a_ext_finished (C s len) b) (ended b)).
    { intros m s b M B. unfold a_ext_finished, ended. apply does_say. destruct B as [-> | ->]; cbn [N.eqb Pos.eqb].
      - apply (reads_le _ _ _ _ n); [exact M|exact R].
      - apply (reads_le _ _ _ _ (pred n0)); [lia|exact K]. }
    apply (reads_skip_check _ _ _ _ _ (C StLowerChunkExtensionName len)); try reflexivity.
    apply reads_many_next; [reflexivity|reflexivity| |].
    - intros b E. cbn [abyte_raw a_st]. unfold a_ext_name, by_table. rewrite token_eq, (small_tchar _ E), E.
      unfold lowered. rewrite <- tchar_lower. now destruct (is_upper b).
    - intros b E. cbn [abyte_raw a_st pred]. unfold a_ext_name, by_table. rewrite token_eq, E.
      destruct (N.eqb_spec b 61) as [->|N61].
      { change (255 <=? 61) with false. cbv iota. apply does_go. unfold st; cbn [nrm a_st a_len].
        apply (reads_skip_check _ _ _ _ _ (C StChunkExtensionValue len)); try reflexivity.
        apply (reads_ext_text len ended n) with (m := Plain). intros b. apply En. lia. }
      destruct (N.eqb_spec b 59) as [->|N59].
      { change (255 <=? 59) with false. cbn [orb]. cbv iota. apply En; [lia|now left]. }
      destruct (N.eqb_spec b 13) as [->|N13].
      { change (255 <=? 13) with false. cbn [orb]. cbv iota. apply En; [lia|now right]. }
      cbn [orb]. destruct (255 <=? b); [apply does_crash|apply does_wrong].
  Qed.

  Lemma reads_exactly len k n : reads n (C StChunkDataCr 0) k -> forall m, (m <= n)%nat ->
    reads m (C StChunkData len) (exactly StChunkData len (as_is KChunkData) k).
  Proof.
    intros K m M l s. revert len l. induction s as [|b s IH]; intros len l L; cbn [exactly].
    - now apply shows_nil.
    - cbn [List.length] in L. destruct (N.eqb_spec len 0) as [->|NZ].
      + specialize (K l (b :: s) ltac:(cbn [List.length]; lia)). rewrite aexec_byte in K |- * by reflexivity. exact K.
      + rewrite aexec_byte by reflexivity. unfold abyte. cbn [abyte_raw a_st]. unfold a_by_length. cbn [a_len].
        destruct (N.eqb_spec len 0); [contradiction|]. unfold st_len; cbn [nrm a_st a_len].
        destruct (N.eqb_spec len 1) as [->|N1].
        * apply K. lia.
        * apply IH. lia.
  Qed.

  Lemma reads_chunk_body len again n : reads n (A StChunkLength1 0 0 0) again -> reads n (C StChunkExtensionsFinished len) (chunk_body again len).
  Proof.
    intros R. apply reads_eps with (a' := C StChunkLengthLf len); [reflexivity|].
    apply (reads_literal1 _ _ _ _ _ _ StChunkData); [reflexivity|reflexivity|]. unfold st; cbn [nrm a_st a_len].
    apply (reads_exactly len _ n); [|lia].
    apply (reads_literal1 _ _ _ _ _ _ StChunkDataLf); [reflexivity|reflexivity|].
    apply (reads_literal1 _ _ _ _ _ _ StChunkLength1); [reflexivity|reflexivity|]. unfold st; cbn [nrm a_st a_len].
    apply (reads_le _ _ _ _ n); [lia|exact R].
  Qed.

  Lemma reads_trailers n : reads n (C StHeaderLf1 0) trailers.
  Proof.
    apply (reads_literal1 _ _ _ _ _ _ StHeaderCr2); [reflexivity|reflexivity|].
    apply (reads_lines Chunked bd clen 0 0 0 (chunk_keeps 0)). intros m.
    apply reads_eps with (a' := C StBodyFinished 0); [reflexivity|].
    apply reads_eps with (a' := C StFinished 0); [reflexivity|]. now apply reads_complete.
  Qed.

  Lemma not_sep b : hexb b = true -> (b =? 13) = false /\ (b =? 59) = false.
  Proof.
    intros Hb. apply hexb_is in Hb. unfold hexdigit, byte in *. split; apply N.eqb_neq; lia.
  Qed.

  Definition size_more : list pstate :=
    [StChunkLength2; StChunkLength3; StChunkLength4; StChunkLength5; StChunkLength6; StChunkLength7; StChunkLength8].

  Lemma reads_size cr semi n0 : (forall v, v < 16 ^ 8 ->
      does n0 (a_chunk_cr (C StChunkLengthCr v) 13) (say [FEv (EChunkLength v)] (cr v)) /\
      does n0 (a_chunk_cr (C StChunkLengthCr v) 59) (say [FEv (EChunkLength v)] (semi v))) ->
    forall j k v n, (k + j = 7)%nat -> (n <= S n0)%nat -> v < 16 ^ N.of_nat (k + 1) ->
    reads n (C (size_state k) v) (size (skipn k size_more) v cr semi).
  Proof.
    intros S. induction j as [|j IH]; intros k v n J L V.
    - assert (k = 7%nat) as -> by lia. cbn [size_state nth size_more skipn size hd]. apply reads_next; [reflexivity|]. intros b.
      cbn [abyte_raw a_st]. destruct (S v) as [S13 S59]; [exact V|].
      assert (M : (pred n <= n0)%nat) by lia.
      destruct (N.eqb_spec b 13) as [->|N13]; [intros l s Ls; apply S13; lia|].
      destruct (N.eqb_spec b 59) as [->|N59]; [intros l s Ls; apply S59; lia|].
      unfold a_chunk_cr. apply N.eqb_neq in N13, N59. rewrite N13, N59. apply does_wrong.
    - assert (Hm : skipn k size_more = size_state k :: skipn (1 + k) size_more).
      { assert (Hk : (k < 7)%nat) by lia. do 7 (destruct k as [|k]; [reflexivity|]). lia. }
      rewrite Hm. cbn [size hd]. assert (V8 : v < 16 ^ 8).
      { eapply N.lt_le_trans; [exact V|]. apply N.pow_le_mono_r; lia. }
      apply reads_next.
      { assert (Hk : (k < 7)%nat) by lia. do 7 (destruct k as [|k]; [reflexivity|]). lia. }
      intros b.
      assert (E : abyte_raw bd (C (size_state k) v) b =
        if hexb b then AGo [] (A (size_state (1 + k)) 0 0 (push_hex v b)) else a_chunk_cr (C StChunkLengthCr v) b).
      { assert (Hk : (k < 7)%nat) by lia. do 7 (destruct k as [|k]; [reflexivity|]). lia. }
      rewrite E. destruct (S v V8) as [S13 S59].
      destruct (hexb b) eqn:X.
      + destruct (not_sep _ X) as [-> ->]. apply does_go. unfold nrm; cbn [a_st a_len].
        rewrite push_hex_add; [|eapply N.lt_le_trans; [exact V8|discriminate]|now apply hexb_is].
        apply IH; [lia|lia|]. replace (N.of_nat (1 + k + 1)) with (N.succ (N.of_nat (k + 1))) by lia.
        rewrite N.pow_succ_r'. pose proof (hexval_small _ (hexb_is _ X)). lia.
      + assert (M : (pred n <= n0)%nat) by lia.
        destruct (N.eqb_spec b 13) as [->|N13]; [intros l s Ls; apply S13; lia|].
        destruct (N.eqb_spec b 59) as [->|N59]; [intros l s Ls; apply S59; lia|].
        unfold a_chunk_cr. apply N.eqb_neq in N13, N59. rewrite N13, N59. apply does_wrong.
  Qed.

  Lemma reads_chunked n : reads n (C StChunkLength1 0) chunked.
  Proof.
    revert n. apply (reads_repeating _ _ _ (at_ := StChunkLength1)); [reflexivity|reflexivity|]. intros n again R. cbv zeta.
    apply reads_next; [reflexivity|]. intros b. cbn [abyte_raw a_st pred]. rewrite hex_eq.
    assert (S : forall v, v < 16 ^ 8 ->
      does n (a_chunk_cr (C StChunkLengthCr v) 13) (say [FEv (EChunkLength v)] (if v =? 0 then trailers else chunk_body again v)) /\
      does n (a_chunk_cr (C StChunkLengthCr v) 59) (say [FEv (EChunkLength v)] (extensions (chunk_body again v)))).
    { intros v V. split.
      - unfold a_chunk_cr. cbn [N.eqb Pos.eqb a_len]. apply does_say. unfold st; cbn [nrm a_st a_len].
        destruct (N.eqb_spec v 0) as [->|]; [apply reads_trailers|now apply reads_chunk_body].
      - unfold a_chunk_cr. cbn [N.eqb Pos.eqb a_len]. apply does_say. unfold st; cbn [nrm a_st a_len].
        apply reads_extensions. apply reads_chunk_body. apply (reads_le _ _ _ _ n); [lia|exact R]. }
    destruct (N.eqb_spec b 48) as [->|N48].
    { change (hexb 48) with true. cbv iota. apply does_say. change (hexval 48) with 0. unfold st; cbn [nrm a_st a_len].
      apply (reads_size _ _ n S 0 7); [reflexivity|lia|reflexivity]. }
    destruct (hexb b) eqn:X; [|apply does_wrong]. apply does_say. unfold st_len; cbn [nrm a_st a_len].
    rewrite hexdigit_to_byte by now apply hexb_is.
    apply (reads_size _ _ n S 7 0); [reflexivity|lia|]. exact (hexval_small _ (hexb_is _ X)).
  Qed.
End Chunks.
