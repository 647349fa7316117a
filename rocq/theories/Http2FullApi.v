(* What Http2Full.v says of every stream, in terms of clients. *)

From Coq Require Import NArith List Bool Arith String Lia.
From Verif Require Import Bytes ByteStream Http2Model Http2Spec Http2Wp Http2Term Http2Sem Http2Sim
  Http2Run Http2Any Http2AnyApi Http2Full Http2FullSem Http2FullSim Http2FullRun Http2FullFacts.
Import ListNotations.
Local Open Scope N_scope.

Lemma fabs_st p : f_st (fabs p) = state_fn p.
Proof. unfold fabs. destruct (state_fn p) eqn:E; reflexivity. Qed.

Lemma bytes_pieces (segs : list (list byte)) : bytes (List.concat segs) -> Forall bytes segs.
Proof.
  induction segs as [|s segs IH]; intros B; [constructor|]. cbn [List.concat] in B.
  apply Forall_app in B. destruct B. constructor; auto.
Qed.

Lemma h2_full chk h segs :
  bytes (List.concat segs) ->
  (chk = false -> Forall (fun s => N.of_nat (List.length s) <= 2 ^ 24 - 256) segs) ->
  exists p log,
    feed chk h new segs =
      (p, log, match snd (full chk segs) with Some _ => OEos | None => OFault FOverflow end) /\
    flat log = fst (full chk segs) /\
    forall a r, snd (full chk segs) = Some (a, r) ->
      state p = a /\ (a = StFrameLength1 <-> r = []) /\ exists u, List.concat segs = u ++ r.
Proof.
  intros B S.
  assert (Forall (small chk) segs) as S'.
  { unfold small. destruct chk; [|now apply Forall_impl with (2 := S eq_refl); auto].
    apply Forall_forall. discriminate. }
  destruct (feed_fsim chk h segs (bytes_pieces _ B) S') as (p & log & o & F & H).
  destruct segs as [|seg segs].
  { exists new, []. split; [reflexivity|]. split; [reflexivity|]. intros a r E. injection E as <- <-.
    split; [reflexivity|]. split; [split; reflexivity|]. now exists []. }
  assert (cut_at (seg :: segs) 0 = true) as C0.
  { clear. unfold cut_at. apply existsb_exists. exists 0%nat. split; [|reflexivity].
    revert seg. induction segs as [|x segs IH]; intros seg; [now left|]. right. apply IH. }
  pose proof (full_frames_ok chk (cut_at (seg :: segs)) C0 (Datatypes.S (List.length (List.concat (seg :: segs))))
                (List.concat (seg :: segs)) B ltac:(lia)) as G.
  exists p, log. unfold full.
  destruct (full_frames chk (cut_at (seg :: segs)) _ _) as [e [[a r]|]]; cbn [fst snd].
  - destruct G as (y & G1 & G2 & G3 & G4). rewrite G1 in H. destruct H as [(-> & K & H)|[_ H]]; [|discriminate H].
    injection H as H1 H2. split; [exact F|]. split; [now symmetry|].
    intros a' r' R. injection R as <- <-.
    destruct K as (_ & _ & _ & K). subst y. unfold awake in G3. rewrite fabs_st in G2, G3.
    split; [congruence|]. split; [|exact G4]. rewrite <- G2. split.
    + intros E. destruct r; [reflexivity|]. exfalso. apply G3; [discriminate|exact E].
    + intros ->. destruct (state_fn p); try reflexivity; exfalso; apply (proj1 G3); (discriminate || reflexivity).
  - rewrite G in H. destruct H as [(_ & _ & H)|[-> H]]; [discriminate H|].
    injection H as H1. split; [exact F|]. split; [now symmetry|]. discriminate.
Qed.
