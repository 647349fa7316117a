(* From one step to whole runs: resume calls and the client follow the
   automaton of Http2Sem.v. *)

From Coq Require Import NArith List Bool Arith String Lia.
From Verif Require Import Bytes ByteStream Http2Model Http2Spec Http2Wp Http2Term Http2Sem Http2Sim.
Import ListNotations.
Local Open Scope N_scope.

(* ------------------------------------------------------------------ *)
(* One call, whatever the input                                         *)
(* ------------------------------------------------------------------ *)

Definition loop_post (chk : bool) (m m' : mach) (o : outcome) : Prop :=
  (exists x, crest (mc m) = x ++ crest (mc m') /\
             cindex (mc m') = (cindex (mc m) + List.length x)%nat) /\
  match o with
  | Exit (SCallback n) =>
      n = cindex (mc m') /\
      (measure (state_fn (mp m')) (crest (mc m')) <
       measure (state_fn (mp m)) (crest (mc m)))%nat /\
      (state (mp m) = state_fn (mp m) -> state (mp m') = state_fn (mp m')) /\
      waiting (state_fn (mp m')) = true
  | Exit (SEos n) =>
      n = cindex (mc m') /\ crest (mc m') = [] /\
      (state (mp m) = state_fn (mp m) -> state (mp m') = state_fn (mp m')) /\
      waiting (state_fn (mp m')) = true
  | Faulted FOverflow => chk = true
  | _ => False
  end.

Lemma loop_facts chk h n m m' o :
  loop chk h n m m' o -> live (state_fn (mp m)) = true -> loop_post chk m m' o.
Proof.
  intros L. induction L as [m m' o R N|n m m1 m' o R L IH]; intros Lv.
  - pose proof (wp_run _ _ (run_fn_step chk h m) _ _ R) as [C S]. split; [exact C|].
    destruct o as [|[k|k|k]|e|[]]; try congruence.
    + destruct S as (-> & S2 & S3 & S4 & S5). repeat split; auto. congruence.
    + rewrite S in Lv. discriminate.
    + rewrite S in Lv. discriminate.
  - pose proof (wp_run _ _ (run_fn_step chk h m) _ _ R) as [(x & C1 & C2) (S1 & S2 & S3 & S4)].
    destruct (IH S3) as [(x' & C3 & C4) P]. split.
    + exists (x ++ x'). rewrite C1, C3, app_assoc, app_length. split; [reflexivity|lia].
    + destruct o as [|[k|k|k]|e|[]]; try exact P.
      * destruct P as (-> & P2 & P3 & P4). repeat split; auto. lia.
      * destruct P as (-> & P2 & P3 & P4). repeat split; auto.
Qed.

Lemma suffix_skipn {X} (s x r : list X) : s = x ++ r -> r = skipn (List.length x) s.
Proof. intros ->. now rewrite skipn_app, skipn_all, Nat.sub_diag. Qed.

(* The same for a resume call. *)
Lemma resume_facts chk h p log s p' log' r :
  live (state_fn p) = true -> resume chk h p log s = (p', log', r) ->
  match r with
  | ROk (SCallback n) =>
      (n <= List.length s)%nat /\
      (measure (state_fn p') (skipn n s) < measure (state_fn p) s)%nat /\
      (state p = state_fn p -> state p' = state_fn p') /\ waiting (state_fn p') = true
  | ROk (SEos n) =>
      n = List.length s /\
      (state p = state_fn p -> state p' = state_fn p') /\ waiting (state_fn p') = true
  | RFault FOverflow => chk = true
  | _ => False
  end.
Proof.
  intros Lv E. destruct (resume_loop _ _ _ _ _ _ _ _ E) as (k & m' & o & L & _ & -> & -> & -> & NF).
  destruct (loop_facts _ _ _ _ _ _ L Lv) as [(x & C1 & C2) P].
  unfold cindex at 2 in C2. cbn [mc mp bs_new crest cmark cslice List.length] in *.
  rewrite Nat.add_0_l in C2.
  destruct o as [|[n|n|n]|e|[]]; cbn [finish snd fst mp with_p add_count state state_fn] in *; try tauto.
  - destruct P as (-> & P2 & P3 & P4). rewrite C2.
    split; [rewrite C1, app_length; lia|].
    rewrite <- (suffix_skipn _ _ _ C1). auto.
  - destruct P as (-> & P2 & P3 & P4). rewrite P2, app_nil_r in C1. rewrite C2, C1. auto.
Qed.

(* ------------------------------------------------------------------ *)
(* One call, following the automaton                                    *)
(* ------------------------------------------------------------------ *)

(* A parser between two calls that follows the automaton. *)
Definition ok (p : parser) : Prop :=
  bit_data32a p < 2 ^ 32 /\ waiting (state_fn p) = true /\ bad (state_fn p) = false /\
  state p = state_fn p.

(* The automaton can go on over s, and does not end in a fragile field. *)
Definition good (x : A) (s : list byte) : Prop :=
  exists y, snd (aexec x s) = Some y /\ bad (a_st y) = false.

Lemma loop_sim chk h n m m' o :
  loop chk h n m m' o -> follows m ->
  (match o with Exit (SCallback _) | Exit (SEos _) => True | _ => False end) /\
  exists new, ml m' = ml m ++ new /\
    aexec (abs (mp m)) (crest (mc m)) = before (flat new) (aexec (abs (mp m')) (crest (mc m'))) /\
    bad (state_fn (mp m')) = false /\ bit_data32a (mp m') < 2 ^ 32.
Proof.
  intros L. induction L as [m m' o R N|n m m1 m' o R L IH]; intros F.
  - pose proof (wp_run _ _ (run_fn_sim chk h m F) _ _ R) as [S1 S2]. split; [|exact S2].
    destruct o as [|[]| |]; tauto.
  - pose proof (wp_run _ _ (run_fn_sim chk h m F) _ _ R) as [_ (new & S1 & S2 & S3 & S4)].
    pose proof (wp_run _ _ (run_fn_step chk h m) _ _ R) as [(x & C1 & C2) (_ & _ & T1 & T2)].
    destruct F as (_ & F2 & _ & _ & _ & y & F3 & F4).
    assert (follows m1) as F.
    { repeat split; auto.
      - rewrite C1 in F2. apply Forall_app in F2. apply F2.
      - exists y. split; [|exact F4]. rewrite S2, snd_before in F3. exact F3. }
    destruct (IH F) as [O (new' & I1 & I2 & I3 & I4)]. split; [exact O|].
    exists (new ++ new'). rewrite I1, S1, app_assoc. split; [reflexivity|].
    rewrite S2, I2, before_before. unfold flat. rewrite flat_map_app. auto.
Qed.

Lemma abs_count p n : abs (add_count p n) = abs p.
Proof. reflexivity. Qed.

Lemma waiting_quiet p : waiting (state_fn p) = true -> quiet (abs p).
Proof.
  unfold quiet, abs. destruct (state_fn p); cbn [waiting]; try discriminate; reflexivity.
Qed.

Lemma resume_sim chk h p log s p' log' r :
  ok p -> bytes s -> good (abs p) s -> resume chk h p log s = (p', log', r) ->
  ok p' /\ exists new, log' = log ++ new /\
  match r with
  | ROk (SCallback n) =>
      (measure (state_fn p') (skipn n s) < measure (state_fn p) s)%nat /\
      bytes (skipn n s) /\
      aexec (abs p) s = before (flat new) (aexec (abs p') (skipn n s))
  | ROk (SEos n) => aexec (abs p) s = (flat new, Some (abs p'))
  | _ => False
  end.
Proof.
  intros (K1 & K2 & K3 & K4) B G E.
  pose proof (waiting_live _ K2) as Lv.
  pose proof (resume_facts _ _ _ _ _ _ _ _ Lv E) as RF.
  destruct (resume_loop _ _ _ _ _ _ _ _ E) as (k & m' & o & L & _ & Ep & El & Er & NF).
  assert (follows (Mach p (bs_new s) log)) as F.
  { repeat split; cbn [mp mc bs_new crest cslice]; auto. }
  destruct (loop_facts _ _ _ _ _ _ L Lv) as [(x & C1 & C2) P].
  unfold cindex at 2 in C2. cbn [mc mp bs_new crest cmark cslice List.length] in *.
  rewrite Nat.add_0_l in C2.
  destruct (loop_sim _ _ _ _ _ _ L F) as [O (new & S1 & S2 & S3 & S4)].
  cbn [mp mc ml bs_new crest] in *.
  destruct o as [|[n|n|n]|e|f]; try contradiction O; cbn [finish snd fst mp ml with_p] in *; subst r p' log'.
  - destruct P as (-> & P2 & P3 & P4). split; [repeat split; auto|].
    exists new. split; [exact S1|]. rewrite C2, <- (suffix_skipn _ _ _ C1).
    split; [exact P2|]. split; [|exact S2].
    rewrite C1 in B. apply Forall_app in B. apply B.
  - destruct P as (-> & P2 & P3 & P4). split; [repeat split; auto|].
    exists new. split; [exact S1|]. rewrite P2 in S2. rewrite S2, abs_count.
    rewrite aexec_nil by now apply waiting_quiet. unfold before. cbn [fst snd].
    now rewrite app_nil_r.
Qed.

(* ------------------------------------------------------------------ *)
(* The client                                                           *)
(* ------------------------------------------------------------------ *)

(* Every piece ends at a good place. *)
Definition good_cuts (x : A) (segs : list (list byte)) : Prop :=
  forall b a, segs = b ++ a -> good x (List.concat b).

Lemma aexec_split x s t e y :
  aexec x s = (e, Some y) -> aexec x (s ++ t) = before e (aexec y t).
Proof. intros H. rewrite aexec_app, H. reflexivity. Qed.

Lemma client_sim chk h : forall fuel segs p log,
  ok p -> bytes (List.concat segs) -> good_cuts (abs p) segs ->
  match segs with [] => True | seg :: more =>
    (measure (state_fn p) seg + 1 + calls more <= fuel)%nat end ->
  exists p' new,
    client fuel chk h p log segs = (p', log ++ new, OEos) /\ ok p' /\
    aexec (abs p) (List.concat segs) = (flat new, Some (abs p')).
Proof.
  induction fuel as [|fuel IH]; intros [|seg more] p log K B G M.
  1, 3: exists p, []; rewrite app_nil_r; split; [reflexivity|]; split; [exact K|];
    cbn [List.concat]; apply aexec_nil, waiting_quiet, K.
  - lia.
  - cbn [client]. destruct (resume chk h p log seg) as [[p1 l1] r] eqn:E.
    cbn [List.concat] in B. apply Forall_app in B. destruct B as [B1 B2].
    assert (good (abs p) seg) as G1.
    { specialize (G [seg] more eq_refl). cbn [List.concat] in G. now rewrite app_nil_r in G. }
    destruct (resume_sim _ _ _ _ _ _ _ _ K B1 G1 E) as (K1 & new & -> & R).
    destruct r as [[n|n|n]| | |]; try contradiction R.
    + destruct R as (R1 & R2 & R3).
      destruct (IH (skipn n seg :: more) p1 (log ++ new)) as (p' & new' & C & K' & X).
      * exact K1.
      * cbn [List.concat]. apply Forall_app. auto.
      * intros b a Eb. destruct b as [|c b].
        -- exists (abs p1). cbn [List.concat]. rewrite aexec_nil by apply waiting_quiet, K1.
           split; [reflexivity|]. destruct K1 as (_ & _ & K1 & _). unfold abs.
           destruct (state_fn p1); exact K1 || reflexivity.
        -- cbn [app] in Eb. injection Eb as <- Eb.
           destruct (G (seg :: b) a) as (y & Y1 & Y2); [now rewrite Eb|].
           exists y. split; [|exact Y2]. cbn [List.concat] in *.
           destruct G1 as (y1 & G1 & _).
           rewrite aexec_app, G1, snd_before in Y1. rewrite R3, snd_before in G1.
           now rewrite aexec_app, G1, snd_before.
      * lia.
      * exists p', (new ++ new'). rewrite app_assoc. split; [exact C|]. split; [exact K'|].
        cbn [List.concat] in *. destruct G1 as (y1 & G1 & _).
        rewrite aexec_app, G1. rewrite R3, snd_before in G1. rewrite R3.
        rewrite aexec_app, G1 in X.
        unfold flat. rewrite flat_map_app. fold (flat new) (flat new').
        revert X. unfold before. cbn [fst snd]. intros X.
        injection X as X1 X2. now rewrite <- X1, <- X2, app_assoc.
    + destruct (IH more p1 (log ++ new)) as (p' & new' & C & K' & X).
      * exact K1.
      * exact B2.
      * intros b a Eb. destruct (G (seg :: b) a) as (y & Y1 & Y2); [now rewrite Eb|].
        exists y. split; [|exact Y2]. cbn [List.concat] in Y1.
        now rewrite (aexec_split _ _ _ _ _ R), snd_before in Y1.
      * destruct more as [|seg' more]; [exact I|]. cbn [calls] in M. cbn [calls].
        unfold measure in *. pose proof (rank_le (state_fn p1)). lia.
      * exists p', (new ++ new'). rewrite app_assoc. split; [exact C|]. split; [exact K'|].
        cbn [List.concat]. rewrite (aexec_split _ _ _ _ _ R), X. unfold before, flat.
        cbn [fst snd]. now rewrite flat_map_app.
Qed.

Lemma feed_sim chk h p segs :
  ok p -> bytes (List.concat segs) -> good_cuts (abs p) segs ->
  exists p' log,
    feed chk h p segs = (p', log, OEos) /\ ok p' /\
    aexec (abs p) (List.concat segs) = (flat log, Some (abs p')).
Proof.
  intros K B G. unfold feed. destruct (client_sim chk h (calls segs) segs p [] K B G) as (p' & new & H).
  - destruct segs as [|seg more]; [exact I|]. cbn [calls]. unfold measure.
    pose proof (rank_le (state_fn p)). lia.
  - exists p', new. exact H.
Qed.
