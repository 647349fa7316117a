(* From one step to whole runs along the automaton of Http2FullSem.v. *)

From Coq Require Import NArith List Bool Arith String Lia.
From Verif Require Import Bytes ByteStream Http2Model Http2Spec Http2Wp Http2Term Http2Sem Http2Sim
  Http2Run Http2Full Http2FullSem Http2FullSim.
Import ListNotations.
Local Open Scope N_scope.

(* A parser between two calls. *)
Definition fok (p : parser) : Prop :=
  bit_data32a p < 2 ^ 32 /\ waiting (state_fn p) = true /\ sane p /\ state p = state_fn p.

Lemma piece_suffix cut x r t : piece cut (x ++ r) t -> piece cut r t.
Proof.
  intros [H1 H2]. split; [exact H1|]. intros k K1 K2. apply H2; [exact K1|]. rewrite app_length. lia.
Qed.

Lemma small_suffix chk x r : small chk (x ++ r) -> small chk r.
Proof. intros H E. specialize (H E). rewrite app_length in H. lia. Qed.

Lemma loop_fsim chk cut t h n m m' o :
  loop chk h n m m' o ->
  bit_data32a (mp m) < 2 ^ 32 -> bytes (crest (mc m)) -> live (state_fn (mp m)) = true ->
  sane (mp m) -> cslice (mc m) = [] -> small chk (crest (mc m)) -> piece cut (crest (mc m)) t ->
  exists new, ml m' = ml m ++ new /\
  match o with
  | Exit (SCallback _) | Exit (SEos _) =>
      fexec chk cut (fabs (mp m)) (crest (mc m) ++ t) =
        bef (flat new) (fexec chk cut (fabs (mp m')) (crest (mc m') ++ t)) /\
      sane (mp m') /\ bit_data32a (mp m') < 2 ^ 32
  | Faulted FOverflow => fexec chk cut (fabs (mp m)) (crest (mc m) ++ t) = (flat new, None)
  | _ => False
  end.
Proof.
  intros L. induction L as [m m' o R N|n m m1 m' o R L IH]; intros F1 F2 F3 F4 F5 F6 F7.
  - pose proof (wp_run _ _ (run_fn_fsim chk cut t h m F1 F2 F3 F4 F5 F6 F7) _ _ R) as S.
    destruct o as [|[k|k|k]| |[]]; cbn [fsim_post] in S; try contradiction; try congruence; try exact S.
    destruct S as [-> S]. exists []. rewrite app_nil_r. auto.
  - pose proof (wp_run _ _ (run_fn_fsim chk cut t h m F1 F2 F3 F4 F5 F6 F7) _ _ R) as (new & S1 & S2 & S3 & S4).
    pose proof (wp_run _ _ (run_fn_step chk h m) _ _ R) as [(x & C1 & C2) (_ & _ & T1 & T2)].
    rewrite C1 in F2, F6, F7. apply Forall_app in F2. destruct F2 as [_ F2].
    destruct (IH S4 F2 T1 S3 T2 (small_suffix _ _ _ F6) (piece_suffix _ _ _ _ F7)) as (new' & I1 & I2).
    exists (new ++ new'). rewrite I1, S1, app_assoc. split; [reflexivity|].
    unfold flat. rewrite flat_map_app. fold (flat new) (flat new').
    destruct o as [|[k|k|k]| |[]]; try contradiction I2; try (rewrite S2, I2; reflexivity).
    all: destruct I2 as (I2 & I3 & I4); rewrite S2, I2, bef_bef; auto.
Qed.

Lemma fabs_count p n : fabs (add_count p n) = fabs p.
Proof. reflexivity. Qed.

Lemma sane_count p n : sane p -> sane (add_count p n).
Proof. auto. Qed.

Lemma resume_fsim chk cut t h p log s p' log' r :
  fok p -> bytes s -> small chk s -> piece cut s t -> resume chk h p log s = (p', log', r) ->
  exists new, log' = log ++ new /\
  match r with
  | ROk (SCallback n) =>
      fok p' /\ (measure (state_fn p') (skipn n s) < measure (state_fn p) s)%nat /\
      (exists x, s = x ++ skipn n s) /\
      fexec chk cut (fabs p) (s ++ t) = bef (flat new) (fexec chk cut (fabs p') (skipn n s ++ t))
  | ROk (SEos n) =>
      fok p' /\ fexec chk cut (fabs p) (s ++ t) = bef (flat new) (fexec chk cut (fabs p') t)
  | RFault FOverflow => fexec chk cut (fabs p) (s ++ t) = (flat new, None)
  | _ => False
  end.
Proof.
  intros (K1 & K2 & K3 & K4) B S Pc E.
  pose proof (waiting_live _ K2) as Lv.
  destruct (resume_loop _ _ _ _ _ _ _ _ E) as (k & m' & o & L & _ & Ep & El & Er & NF).
  destruct (loop_facts _ _ _ _ _ _ L Lv) as [(x & C1 & C2) P].
  unfold cindex at 2 in C2. cbn [mc mp bs_new crest cmark cslice List.length] in *.
  rewrite Nat.add_0_l in C2.
  destruct (loop_fsim chk cut t _ _ _ _ _ L) as (new & S1 & S2);
    cbn [mp mc ml bs_new crest cslice] in *; try assumption; try reflexivity.
  exists new.
  destruct o as [|[n|n|n]|e|[]]; try contradiction S2; cbn [finish snd fst mp ml with_p] in *; subst r p' log';
    (split; [exact S1|]).
  - destruct S2 as (S2 & S3 & S4). destruct P as (-> & P2 & P3 & P4).
    split; [repeat split; auto; apply S3|].
    rewrite C2, <- (suffix_skipn _ _ _ C1).
    split; [exact P2|]. split; [now exists x|exact S2].
  - destruct S2 as (S2 & S3 & S4). destruct P as (-> & P2 & P3 & P4). rewrite P2 in S2.
    split; [repeat split; auto; apply S3|]. exact S2.
  - exact S2.
Qed.

(* The pieces end where cut says. *)
Fixpoint pieces (cut : nat -> bool) (segs : list (list byte)) : Prop :=
  match segs with
  | [] => True
  | s :: more => piece cut s (List.concat more) /\ pieces cut more
  end.

Lemma fquiet_waiting chk p : waiting (state_fn p) = true -> fquiet chk (fabs p).
Proof.
  unfold fquiet, fabs. destruct (state_fn p); cbn [waiting]; try discriminate; reflexivity.
Qed.

Lemma fabs_plain p : plain (fabs p).
Proof. unfold plain, fabs. destruct (state_fn p); reflexivity. Qed.

Lemma client_fsim chk cut h : forall fuel segs p log,
  fok p -> Forall bytes segs -> Forall (small chk) segs -> pieces cut segs ->
  match segs with [] => True | seg :: more =>
    (measure (state_fn p) seg + 1 + calls more <= fuel)%nat end ->
  exists p' new o,
    client fuel chk h p log segs = (p', log ++ new, o) /\
    ((o = OEos /\ fok p' /\ fexec chk cut (fabs p) (List.concat segs) = (flat new, Some (fabs p'))) \/
     (o = OFault FOverflow /\ fexec chk cut (fabs p) (List.concat segs) = (flat new, None))).
Proof.
  induction fuel as [|fuel IH]; intros [|seg more] p log K B S G M.
  1, 3: exists p, [], OEos; rewrite app_nil_r; split; [reflexivity|]; left; split; [reflexivity|];
    split; [exact K|]; apply fexec_nil; [apply fquiet_waiting, K|apply fabs_plain].
  - lia.
  - cbn [client]. destruct (resume chk h p log seg) as [[p1 l1] r] eqn:E.
    pose proof (Forall_inv B) as B1. pose proof (Forall_inv_tail B) as B2.
    pose proof (Forall_inv S) as S1. pose proof (Forall_inv_tail S) as S2.
    destruct G as [G1 G2].
    destruct (resume_fsim chk cut (List.concat more) _ _ _ _ _ _ _ K B1 S1 G1 E) as (new & -> & R).
    destruct r as [[n|n|n]| |[]|]; try contradiction R.
    + destruct R as (K1 & R1 & (x & X) & R3).
      destruct (IH (skipn n seg :: more) p1 (log ++ new)) as (p' & new' & o & C & Q).
      * exact K1.
      * constructor; [|exact B2]. rewrite X in B1. now apply Forall_app in B1.
      * constructor; [|exact S2]. rewrite X in S1. exact (small_suffix _ _ _ S1).
      * split; [|exact G2]. rewrite X in G1. exact (piece_suffix _ _ _ _ G1).
      * lia.
      * exists p', (new ++ new'), o. rewrite app_assoc. split; [exact C|].
        cbn [List.concat] in *. rewrite R3. unfold flat. rewrite flat_map_app. fold (flat new) (flat new').
        destruct Q as [(Q1 & Q2 & Q3)|(Q1 & Q3)]; rewrite Q3; [left|right]; repeat split; auto; apply Q2.
    + destruct R as (K1 & R3).
      destruct (IH more p1 (log ++ new)) as (p' & new' & o & C & Q).
      * exact K1.
      * exact B2.
      * exact S2.
      * exact G2.
      * destruct more as [|seg' more]; [exact I|]. cbn [calls] in M. cbn [calls].
        unfold measure in *. pose proof (rank_le (state_fn p1)). lia.
      * exists p', (new ++ new'), o. rewrite app_assoc. split; [exact C|].
        cbn [List.concat] in *. rewrite R3. unfold flat. rewrite flat_map_app. fold (flat new) (flat new').
        destruct Q as [(Q1 & Q2 & Q3)|(Q1 & Q3)]; rewrite Q3; [left|right]; repeat split; auto; apply Q2.
    + exists p1, new, (OFault FOverflow). split; [reflexivity|]. right. split; [reflexivity|].
      exact R.
Qed.

(* The ends of pieces as Http2Full.v counts them. *)
Lemma ends_le segs : forall k, In k (ends segs) -> (k <= List.length (List.concat segs))%nat.
Proof.
  induction segs as [|s more IH]; intros k; cbn [ends In List.concat]; [tauto|].
  rewrite app_length. intros [<-|H]; [lia|]. specialize (IH k H). lia.
Qed.

Lemma ends_pieces cut segs :
  (forall k, (k < List.length (List.concat segs))%nat -> cut k = true -> In k (ends segs)) ->
  (forall k, In k (ends segs) -> cut k = true) -> pieces cut segs.
Proof.
  induction segs as [|s more IH]; intros H1 H2; [exact I|].
  cbn [List.concat ends] in H1, H2. rewrite app_length in H1. split.
  - split; [apply H2; now left|]. intros k K1 K2. destruct (cut k) eqn:C; [exfalso|reflexivity].
    destruct (H1 k K2 C) as [<-|H]; [lia|]. pose proof (ends_le more k H). lia.
  - apply IH.
    + intros k K C. destruct (H1 k ltac:(lia) C) as [<-|H]; [lia|exact H].
    + intros k K. apply H2. now right.
Qed.

Lemma cut_pieces segs : pieces (cut_at segs) segs.
Proof.
  apply ends_pieces; unfold cut_at.
  - intros k _ H. apply existsb_exists in H. destruct H as (x & X & E). apply Nat.eqb_eq in E. now subst x.
  - intros k H. apply existsb_exists. exists k. split; [exact H|apply Nat.eqb_refl].
Qed.

Lemma feed_fsim chk h segs :
  Forall bytes segs -> Forall (small chk) segs ->
  exists p log o,
    feed chk h new segs = (p, log, o) /\
    ((o = OEos /\ fok p /\ fexec chk (cut_at segs) F0 (List.concat segs) = (flat log, Some (fabs p))) \/
     (o = OFault FOverflow /\ fexec chk (cut_at segs) F0 (List.concat segs) = (flat log, None))).
Proof.
  intros B S. unfold feed.
  destruct (client_fsim chk (cut_at segs) h (calls segs) segs new []) as (p & log & o & H); try assumption.
  - repeat split.
  - apply cut_pieces.
  - destruct segs as [|seg more]; [exact I|]. cbn [calls]. unfold measure.
    pose proof (rank_le (state_fn new)). lia.
  - exists p, log, o. exact H.
Qed.
