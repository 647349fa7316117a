(* Which sizes of chunks are taken. *)

From Coq Require Import NArith List Bool Arith String Lia.
From Verif Require Import Bytes ByteStream Http1Model Http1Base Http1Wp Http1Term Http1Spec Http1Sem
  Http1Sim Http1Step Http1Misc Http1Run Http1Client Http1Api Http1Protocol Http1Data Http1Wire Http1Round Http1Round2
  SizeSpec.
Import ListNotations.
Local Open Scope N_scope.
Local Open Scope list_scope.

Lemma feed_size_wrong h clen p segs l b rest :
  (forall l, h_clen h l = clen (flat l)) ->
  rinv2 p (hd [] segs) (List.concat (tl segs)) -> segs <> [] -> state_fn p <> StDetect1 ->
  rsem clen p [] (List.concat segs) = AFail l (ErChunkLength b) rest ->
  exists p' log rest', feed h p segs = (p', log, rest', OError (ErChunkLength b)).
Proof.
  intros Hc I N D R.
  destruct (feed h p segs) as [[[p' log] rest'] o] eqn:E.
  assert (NF : o <> OFuel).
  { pose proof (feed_ends h p segs (ri2_state _ _ _ I)) as X. rewrite E in X. exact X. }
  unfold feed in E.
  destruct (client_sim h clen Hc _ _ _ _ _ _ _ _ I (or_intror N) (fun X => match D X with end) E) as [P _].
  unfold client_post in P. cbn [flat flat_map] in P. rewrite R in P.
  destruct o.
  - destruct P as (P & _). discriminate.
  - destruct P as (P & _). discriminate.
  - destruct P as (L & e' & R' & [= <- <- <-] & K & _). exists p', log, rest'.
    destruct e; cbn [same_kind] in K; try discriminate K. now rewrite K.
  - destruct P as (? & P & _). discriminate.
  - congruence.
Qed.

Lemma hexdigit_sep b : hexdigit b -> (b =? 13) = false /\ (b =? 59) = false.
Proof. unfold hexdigit, byte. intros H. split; apply N.eqb_neq; lia. Qed.

Lemma one_more_exec clen u b l r : one_more u b ->
  exists l', aexec Chunked None clen (A StChunkLength1 0 0 0) l (u ++ b :: r) = AFail l' (ErChunkLength b) r.
Proof.
  intros [B [->|(L & F & N)]]; destruct (hexdigit_sep b B) as [S1 S2].
  - cbn [app]. rewrite (ckeep clen 0 StChunkLength1 48 [FEv EChunkBegin] StChunkLengthCr) by reflexivity.
    rewrite aexec_byte by reflexivity. unfold abyte. cbn [abyte_raw a_st]. unfold a_chunk_cr. rewrite S1, S2.
    eexists. reflexivity.
  - destruct u as [|c u]; [discriminate L|]. inversion F as [|? ? F1 F2]; subst. cbn [hd] in N.
    cbn [List.length] in L. injection L as L. cbn [app]. rewrite aexec_byte by reflexivity.
    assert (E : abyte Chunked None (A StChunkLength1 0 0 0) c = AGo [FEv EChunkBegin] (A (size_state 0) 0 0 (hexval c))).
    { unfold abyte. cbn [abyte_raw a_st]. apply N.eqb_neq in N.
      rewrite N, hexdigit_is, hexdigit_to_byte by assumption. reflexivity. }
    rewrite E. rewrite size_more; [|lia|assumption|pose proof (hexval_small _ F1); change (16 ^ N.of_nat (0 + 1)) with 16; lia].
    rewrite L. cbn [Nat.add size_state nth]. rewrite aexec_byte by reflexivity. unfold abyte. cbn [abyte_raw a_st].
    unfold a_chunk_cr. rewrite S1, S2. eexists. reflexivity.
Qed.

Lemma size_lost h q cs u b tail segs : Forall wf_chunk cs -> one_more u b ->
  List.concat segs = flat_map render_chunk cs ++ u ++ b :: tail ->
  exists p' log rest, feed h (init_chunked q) segs = (p', log, rest, OError (ErChunkLength b)).
Proof.
  intros F O E.
  assert (NE : segs <> []).
  { intros ->. cbn in E. symmetry in E. apply app_eq_nil in E. destruct E as [_ E].
    apply app_eq_nil in E. destruct E as [_ E]. discriminate E. }
  destruct (one_more_exec (fun _ => None) u b ([] ++ flat_map seen_chunk cs) tail O) as [l L].
  unfold feed. rewrite (client_no_clen h) by (reflexivity || discriminate).
  edestruct (feed_size_wrong (no_clen h) (fun _ => None) (init_chunked q) segs l b tail) as (p' & log & rest & G);
    [reflexivity| |assumption|discriminate| |].
  - constructor; try reflexivity; try discriminate. left; reflexivity.
  - rewrite E. etransitivity; [apply (chunks_bytes (fun _ => None)); assumption|exact L].
  - unfold feed in G. eauto.
Qed.

Lemma short_or s : short s \/ ~ short s.
Proof.
  unfold short. destruct (le_dec (List.length s) 8); [|right; tauto].
  destruct (N.eq_dec (hd 48 s) 48); [right|left]; tauto.
Qed.

Lemma not_short s : chunk_size s -> hexadecimal s <> 0 -> ~ short s ->
  exists u b v, s = u ++ b :: v /\ one_more u b.
Proof.
  intros [NE F] Z N. destruct s as [|c s]; [congruence|]. inversion F as [|? ? F1 F2]; subst.
  destruct (N.eq_dec c 48) as [->|C].
  - destruct s as [|b v]; [exfalso; apply Z; reflexivity|]. inversion F2; subst.
    exists [48], b, v. split; [reflexivity|]. split; [assumption|now left].
  - assert (L : (8 < List.length (c :: s))%nat).
    { destruct (le_dec (List.length (c :: s)) 8) as [X|X]; [|lia]. exfalso. apply N. split; [exact X|exact C]. }
    pose proof (firstn_skipn 8 (c :: s)) as E. destruct (skipn 8 (c :: s)) as [|b v] eqn:K.
    { assert (X := skipn_length 8 (c :: s)). rewrite K in X. cbn [List.length] in *. lia. }
    exists (firstn 8 (c :: s)), b, v. split; [now rewrite E|].
    assert (G : Forall hexdigit (firstn 8 (c :: s) ++ b :: v)) by now rewrite E.
    apply Forall_app in G. destruct G as [G1 G2]. inversion G2; subst. split; [assumption|]. right.
    split; [|split; [assumption|exact C]]. rewrite firstn_length. lia.
Qed.

Lemma size_taken h q cs s xs d ts tail segs :
  Forall wf_chunk cs -> chunk_size s -> hexadecimal s = N.of_nat (List.length d) -> d <> [] -> Forall wf_ext xs ->
  Forall wf_header ts ->
  List.concat segs = render_chunked (cs ++ [Chunk s xs d]) ts ++ tail ->
  exists p' log rest o, feed h (init_chunked q) segs = (p', log, rest, o) /\
    (short s /\ o = OFinished /\ rest = tail /\ flat log = seen_chunked (cs ++ [Chunk s xs d]) ts \/
     ~ short s /\ exists b, o = OError (ErChunkLength b)).
Proof.
  intros F [NE Hs] V D X T E. destruct (short_or s) as [K|K].
  - destruct (chunked_round h q (cs ++ [Chunk s xs d]) ts tail segs) as (p' & log & G & L); try assumption.
    + apply Forall_app. split; [assumption|]. constructor; [|constructor]. destruct K as [K1 K2].
      unfold wf_chunk. cbn [c_size c_exts c_data]. repeat split; try assumption.
      destruct s; [congruence|cbn; lia].
    + exists p', log, tail, OFinished. split; [exact G|]. left. auto.
  - assert (Z : hexadecimal s <> 0).
    { rewrite V. destruct d as [|c d]; [congruence|]. cbn [List.length]. lia. }
    destruct (not_short s (conj NE Hs) Z K) as (u & b & v & -> & O).
    destruct (size_lost h q cs u b (v ++ flat_map render_ext xs ++ crlf ++ d ++ crlf ++ [48] ++ crlf ++ render_headers ts ++ tail) segs)
      as (p' & log & rest & G); try assumption.
    + rewrite E. unfold render_chunked. rewrite flat_map_app. cbn [flat_map]. rewrite app_nil_r.
      unfold render_chunk at 2. cbn [c_size c_exts c_data]. repeat (rewrite <- !app_assoc; cbn [app]). reflexivity.
    + exists p', log, rest, (OError (ErChunkLength b)). split; [exact G|]. right. eauto.
Qed.
