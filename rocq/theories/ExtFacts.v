(* What may follow the size of a chunk and the name of an extension. *)

From Coq Require Import NArith List Bool Arith String Lia.
From Verif Require Import Bytes ByteStream Http1Model Http1Base Http1Wp Http1Term Http1Spec Http1Sem
  Http1Sim Http1Step Http1Misc Http1Run Http1Client Http1Api Http1Protocol Http1Data Http1Wire Http1Round Http1Round2
  Http1Reads SizeSpec SizeFacts ExtSpec.
Import ListNotations.
Local Open Scope N_scope.
Local Open Scope list_scope.

Lemma feed_chunk_wrong h q segs l e rest :
  (forall e', same_kind e' e -> e' = e) -> segs <> [] ->
  aexec Chunked None (fun _ => None) (A StChunkLength1 0 0 0) [] (List.concat segs) = AFail l e rest ->
  exists p' log rest', feed h (init_chunked q) segs = (p', log, rest', OError e).
Proof.
  intros U N R. unfold feed. rewrite (client_no_clen h) by (reflexivity || discriminate).
  edestruct (feed_fails (no_clen h) (fun _ => None) (init_chunked q) segs) as (p' & log & e' & Y & Z & P);
    [reflexivity| |assumption|discriminate|exact R|].
  - constructor; try reflexivity; try discriminate. left; reflexivity.
  - rewrite (U _ Z) in Y. unfold feed in Y. eauto.
Qed.

Lemma hex_hexdigit b : is_hex b = true -> hexdigit b.
Proof.
  unfold hexdigit, is_hex, is_digit. rewrite !orb_true_iff, !andb_true_iff, !N.leb_le. unfold byte in *; lia.
Qed.
Lemma not_hex b : ~ hexdigit b -> is_hex b = false.
Proof. intros H. destruct (is_hex b) eqn:E; [|reflexivity]. destruct (H (hex_hexdigit b E)). Qed.

Section Ext.
  Variable clen : list fevent -> option N.
  Notation run := (aexec Chunked None clen).

  Lemma cfail s len b e l r : needs_byte s = true ->
    abyte_raw None (A s 0 0 len) b = AErr e -> run (A s 0 0 len) l (b :: r) = AFail l e r.
  Proof. intros N E. rewrite aexec_byte by exact N. unfold abyte. rewrite E. now rewrite app_nil_r. Qed.

  Lemma size_stops k len b : is_hex b = false -> b <> 13 -> b <> 59 ->
    needs_byte (size_state k) = true /\ abyte_raw None (A (size_state k) 0 0 len) b = AErr (ErChunkLength b).
  Proof.
    intros H N1 N2. apply N.eqb_neq in N1, N2.
    do 7 (destruct k as [|k]; [cbn [size_state nth abyte_raw a_st needs_byte]; unfold a_chunk_n, a_chunk_cr; rewrite H, N1, N2; split; reflexivity|]).
    destruct k; cbn [size_state nth abyte_raw a_st needs_byte]; unfold a_chunk_cr; rewrite N1, N2; split; reflexivity.
  Qed.

  Lemma size_run c s l r : hexdigit c -> c <> 48 -> Forall hexdigit s -> (List.length s <= 7)%nat ->
    exists k len, len <> 0 /\ run (A StChunkLength1 0 0 0) l ((c :: s) ++ r) = run (A (size_state k) 0 0 len) (l ++ [FEv EChunkBegin]) r.
  Proof.
    intros F1 N F2 L. cbn [app]. rewrite aexec_byte by reflexivity.
    assert (E : abyte Chunked None (A StChunkLength1 0 0 0) c = AGo [FEv EChunkBegin] (A (size_state 0) 0 0 (hexval c))).
    { unfold abyte. cbn [abyte_raw a_st]. apply N.eqb_neq in N.
      rewrite N, hexdigit_is, hexdigit_to_byte by assumption. reflexivity. }
    rewrite E. rewrite size_more; [|lia|assumption|pose proof (hexval_small _ F1); change (16 ^ N.of_nat (0 + 1)) with 16; lia].
    do 2 eexists. split; [|reflexivity].
    assert (NZ : hexval c <> 0).
    { unfold hexdigit, hexval, byte in *. destruct (N.leb_spec c 57), (N.leb_spec c 70); lia. }
    pose proof (fold_ge s (hexval c)). lia.
  Qed.

  Lemma size_begun_exec s b l r : size_begun s -> ~ hexdigit b -> (s = [] \/ b <> 13 /\ b <> 59) ->
    exists l', run (A StChunkLength1 0 0 0) l (s ++ b :: r) = AFail l' (ErChunkLength b) r.
  Proof.
    intros S H B. pose proof (not_hex b H) as H'.
    destruct S as [->|[->|(L & F & N)]].
    - exists l. cbn [app]. apply cfail; [reflexivity|]. cbn [abyte_raw a_st]. rewrite H'.
      destruct (N.eqb_spec b 48) as [->|_]; [discriminate H'|]. reflexivity.
    - destruct B as [B|[B1 B2]]; [discriminate B|]. cbn [app].
      rewrite (ckeep clen 0 StChunkLength1 48 [FEv EChunkBegin] StChunkLengthCr) by reflexivity.
      eexists. destruct (size_stops 7 0 b H' B1 B2) as [X Y]. apply (cfail StChunkLengthCr); [exact X|exact Y].
    - destruct s as [|c s]; [exists l; cbn in N; congruence|]. destruct B as [B|[B1 B2]]; [discriminate B|].
      inversion F as [|? ? F1 F2]; subst. cbn [hd List.length] in *.
      destruct (size_run c s l (b :: r) F1 N F2 ltac:(lia)) as (k & len & _ & E). rewrite E.
      eexists. destruct (size_stops k len b H' B1 B2) as [X Y]. apply cfail; [exact X|exact Y].
  Qed.

  Lemma exts_sep len xs : forall s ev l r, at_sep len s ev -> Forall wf_ext xs ->
    run (A s 0 0 len) l (flat_map render_ext xs ++ 59 :: r) =
    run (A StStripChunkExtensionName 0 0 len) (l ++ ev ++ flat_map seen_ext xs) r.
  Proof.
    induction xs as [|x xs IH]; intros s ev l r (N & E1 & E2) F; cbn [flat_map app].
    - rewrite (ckeep clen len s 59 ev StStripChunkExtensionName) by (assumption || reflexivity). now rewrite app_nil_r.
    - inversion F as [|? ? (P & X1 & X2 & X3) F2]; subst. unfold render_ext, seen_ext.
      destruct x as [pad nm val]. cbn [x_pad x_name x_value] in *.
      rewrite <- !app_assoc. cbn [app].
      rewrite (ckeep clen len s 59 ev StStripChunkExtensionName) by (assumption || reflexivity).
      rewrite xpad_bytes by auto. destruct nm as [|b nm]; [congruence|].
      inversion X2 as [|? ? T1 T2]; subst. cbn [app].
      rewrite (ckeep clen len StStripChunkExtensionName _ _ StLowerChunkExtensionName _ _ eq_refl eq_refl eq_refl (xname_raw len b StStripChunkExtensionName T1 (or_introl eq_refl))).
      rewrite xname_more by assumption. destruct val as [[w v]|].
      + destruct X3 as (W & V1 & V2 & V3). rewrite <- !app_assoc. cbn [app].
        rewrite (ckeep clen len StLowerChunkExtensionName 61 [] StStripChunkExtensionValue) by reflexivity.
        rewrite <- !app_assoc. cbn [app].
        rewrite xpad_bytes by auto. rewrite xvalue_bytes by assumption.
        rewrite (IH _ [FEv EChunkExtFinished]) by (assumption || (repeat split; reflexivity)).
        f_equal. cbn [map app]. now rewrite ?app_nil_r, <- !app_assoc.
      + cbn [app]. rewrite (IH _ [FEv EChunkExtFinished]) by (assumption || (repeat split; reflexivity)).
        f_equal. cbn [map app]. now rewrite ?app_nil_r, <- !app_assoc.
  Qed.

  Lemma name_exec s xs w n b l r : (1 <= List.length s <= 8)%nat -> Forall hexdigit s -> hd 48 s <> 48 ->
    Forall wf_ext xs -> padding w -> n <> [] -> Forall (fun b => tchar b = true) n ->
    tchar b = false -> b <> 61 -> b <> 13 -> b <> 59 -> b < 255 ->
    exists l', run (A StChunkLength1 0 0 0) l (s ++ flat_map render_ext xs ++ 59 :: w ++ n ++ b :: r) =
      AFail l' (ErChunkExtensionName b) r.
  Proof.
    intros L F N X P NN T B1 B2 B3 B4 B5.
    destruct s as [|c s]; [cbn in L; lia|]. inversion F as [|? ? F1 F2]; subst. cbn [hd List.length] in *.
    destruct (size_run c s l (flat_map render_ext xs ++ 59 :: w ++ n ++ b :: r) F1 N F2 ltac:(lia)) as (k & len & Z & E). rewrite E.
    rewrite (exts_sep len xs _ [FEv (EChunkLength len)]) by (apply size_sep || idtac; assumption).
    rewrite xpad_bytes by auto. destruct n as [|a n]; [congruence|].
    inversion T as [|? ? T1 T2]; subst. cbn [app].
    rewrite (ckeep clen len StStripChunkExtensionName _ _ StLowerChunkExtensionName _ _ eq_refl eq_refl eq_refl (xname_raw len a StStripChunkExtensionName T1 (or_introl eq_refl))).
    rewrite xname_more by assumption. eexists. apply cfail; [reflexivity|].
    cbn [abyte_raw a_st]. unfold a_ext_name, by_table.
    assert (K : is_token b = Some false).
    { rewrite token_eq, B1. replace (255 <=? b) with false by (symmetry; apply N.leb_gt; exact B5). reflexivity. }
    rewrite K. apply N.eqb_neq in B2, B3, B4. rewrite B2, B3, B4. reflexivity.
  Qed.
End Ext.

Lemma not_nil (segs : list (list byte)) x b y : List.concat segs = x ++ b :: y -> segs <> [].
Proof. intros E ->. destruct x; discriminate E. Qed.

Lemma size_followed h q cs s b tail segs :
  Forall wf_chunk cs -> size_begun s -> ~ hexdigit b -> (s = [] \/ b <> 13 /\ b <> 59) ->
  List.concat segs = flat_map render_chunk cs ++ s ++ b :: tail ->
  exists p' log rest, feed h (init_chunked q) segs = (p', log, rest, OError (ErChunkLength b)).
Proof.
  intros F S H B E.
  destruct (size_begun_exec (fun _ => None) s b ([] ++ flat_map seen_chunk cs) tail S H B) as [l L].
  apply (feed_chunk_wrong h q segs l _ tail).
  - intros e' K. destruct e'; cbn in K; try discriminate K. exact K.
  - rewrite app_assoc in E. exact (not_nil _ _ _ _ E).
  - rewrite E. etransitivity; [apply chunks_bytes; assumption|exact L].
Qed.

Lemma name_followed h q cs s xs w n b tail segs :
  Forall wf_chunk cs -> (1 <= List.length s <= 8)%nat -> Forall hexdigit s -> hd 48 s <> 48 ->
  Forall wf_ext xs -> padding w -> n <> [] -> Forall (fun b => tchar b = true) n ->
  tchar b = false -> b <> 61 -> b <> 13 -> b <> 59 -> b < 255 ->
  List.concat segs = flat_map render_chunk cs ++ s ++ flat_map render_ext xs ++ [59] ++ w ++ n ++ b :: tail ->
  exists p' log rest, feed h (init_chunked q) segs = (p', log, rest, OError (ErChunkExtensionName b)).
Proof.
  intros F L Hs Z X P NN T B1 B2 B3 B4 B5 E.
  destruct (name_exec (fun _ => None) s xs w n b ([] ++ flat_map seen_chunk cs) tail L Hs Z X P NN T B1 B2 B3 B4 B5) as [l K].
  apply (feed_chunk_wrong h q segs l _ tail).
  - intros e' K'. destruct e'; cbn in K'; try discriminate K'. exact K'.
  - rewrite !app_assoc in E. exact (not_nil _ _ _ _ E).
  - rewrite E. etransitivity; [apply chunks_bytes; assumption|exact K].
Qed.
