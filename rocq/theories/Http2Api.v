(* The properties of the HTTP/2 parser, from the simulation and the step
   invariants. *)

From Coq Require Import NArith List Bool Arith String Lia.
From Verif Require Import Bytes ByteStream Http2Model Http2Spec Http2Wp Http2Term Http2Sem Http2Sim
  Http2Run Http2Frame Http2Cut Http2Misc.
Import ListNotations.
Local Open Scope N_scope.

Lemma abs_place p q : ok p -> ok q -> abs p = abs q -> same_place p q.
Proof.
  intros (_ & _ & _ & S1) (_ & _ & _ & S2) E.
  destruct p as [a b c d n s f], q as [a' b' c' d' n' s' f'].
  unfold same_place. cbn [state state_fn bit_data32a bit_data32b bit_data16a bit_data16b] in *.
  subst s s'. unfold abs in E.
  cbn [state state_fn bit_data32a bit_data32b bit_data16a bit_data16b] in *.
  assert (f = f') as <-.
  { destruct f, f'; try reflexivity; discriminate E. }
  split; [reflexivity|]. split; [reflexivity|].
  destruct f; try (left; reflexivity); right; injection E as E1 E2 E3 E4; auto.
Qed.

Lemma ok_new : ok new.
Proof. repeat split. Qed.

Lemma abs_new : abs new = A0.
Proof. reflexivity. Qed.

(* C33 *)
Lemma h2_terminates chk p h log s p' log' r :
  reachable chk p -> bytes s -> resume chk h p log s = (p', log', r) ->
  (exists n, r = ROk (SCallback n) /\ (n <= List.length s)%nat) \/
  r = ROk (SEos (List.length s)) \/
  (r = RFault FOverflow /\ chk = true).
Proof.
  intros R B E. destruct (reachable_history _ _ R) as [W S].
  pose proof (resume_facts _ _ _ _ _ _ _ _ (waiting_live _ W) E) as F.
  destruct r as [[n|n|n]|e|[]|]; try tauto.
  - left. exists n. tauto.
  - destruct F as [-> _]. auto.
Qed.

Lemma h2_overflow p h log s p' log' f :
  history true p log -> bytes s -> resume true h p log s = (p', log', RFault f) ->
  exists len t fl z, last_header log' = Some (len, t, fl) /\ z < 256 /\
    len < fixed_part t fl + (if has_pad t fl then 1 + z else 0).
Proof.
  intros H B E. destruct (history_facts _ _ _ H) as ([W S] & _ & I).
  exact (resume_over _ _ _ _ _ _ _ (waiting_live _ W) (I eq_refl) B E).
Qed.

(* C41 *)
Lemma h2_ids chk p log : history chk p log -> Forall id31 log.
Proof. intros H. apply (history_facts _ _ _ H). Qed.

(* C53 *)
Lemma h2_count chk p h log s p' log' n :
  reachable chk p -> bytes s ->
  resume chk h p log s = (p', log', ROk (SCallback n)) \/
  resume chk h p log s = (p', log', ROk (SEos n)) ->
  byte_count p' = byte_count p + N.of_nat n.
Proof.
  intros R B E. destruct (reachable_history _ _ R) as [W S]. apply waiting_live in W.
  destruct E as [E|E]; apply resume_misc in E; apply E; exact W.
Qed.

(* C34 *)
Lemma prefix_bytes fs u segs : Forall wf_frame fs -> List.concat segs ++ u = render_all fs ->
  bytes (List.concat segs).
Proof.
  intros F E. pose proof (render_all_bytes fs F) as B. rewrite <- E in B.
  now apply Forall_app in B.
Qed.

Lemma h2_segments fs u segs segs' chk chk' h h' :
  Forall wf_frame fs -> List.concat segs ++ u = render_all fs ->
  List.concat segs' = List.concat segs -> safe_cuts fs segs -> safe_cuts fs segs' ->
  exists p log p' log',
    feed chk h new segs = (p, log, OEos) /\ feed chk' h' new segs' = (p', log', OEos) /\
    flat log = flat log' /\ same_place p p'.
Proof.
  intros F E E' S S'.
  destruct (feed_sim chk h new segs ok_new) as (p & log & C & K & X).
  { now apply (prefix_bytes fs u). }
  { apply (safe_good fs segs u []); [assumption|cbn; lia|now rewrite app_nil_r|assumption]. }
  destruct (feed_sim chk' h' new segs' ok_new) as (p' & log' & C' & K' & X').
  { apply (prefix_bytes fs u); [assumption|]. now rewrite E'. }
  { apply (safe_good fs segs' u []); [assumption|cbn; lia|now rewrite app_nil_r, E'|assumption]. }
  exists p, log, p', log'. split; [exact C|]. split; [exact C'|].
  rewrite E', X in X'. injection X' as X1 X2. split; [exact X1|]. now apply abs_place.
Qed.

(* C37 *)
Lemma h2_frames fs (v : byte) segs chk h :
  Forall wf_frame fs -> v < 256 -> List.concat segs = render_all fs ++ [v] -> safe_cuts fs segs ->
  exists p log q logq,
    feed chk h new segs = (p, log, OEos) /\ flat log = seen_all fs /\
    feed chk h new [[v]] = (q, logq, OEos) /\ flat logq = [] /\ same_place p q.
Proof.
  intros F V E S.
  destruct (feed_sim chk h new segs ok_new) as (p & log & C & K & X).
  { rewrite E. apply Forall_app. split; [now apply render_all_bytes|]. now repeat constructor. }
  { apply (safe_good fs segs [] [v]); [assumption|cbn; lia|now rewrite E, app_nil_r|assumption]. }
  destruct (feed_sim chk h new [[v]] ok_new) as (q & logq & Cq & Kq & Xq).
  { now repeat constructor. }
  { intros b a Eb. destruct b as [|x [|y b]]; cbn [app] in Eb.
    + exists A0. split; [exact eq_refl|reflexivity].
    + injection Eb as <- _. eexists. split; [exact eq_refl|reflexivity].
    + discriminate. }
  exists p, log, q, logq. split; [exact C|].
  rewrite E, abs_new, aexec_frames in X by (assumption || discriminate).
  cbn [List.concat app] in Xq. rewrite abs_new in Xq.
  assert (fst (aexec A0 [v]) = []) as Y by exact eq_refl.
  rewrite Xq in X, Y. cbn [fst] in Y. unfold before in X. cbn [fst snd] in X.
  rewrite Y, app_nil_r in X. injection X as X1 X2.
  split; [now rewrite X1|]. split; [exact Cq|]. split; [exact Y|]. now apply abs_place.
Qed.

(* C42, the frames for which it holds *)
Lemma aexec_prompt fs f : Forall wf_frame fs -> wf_frame f -> prompt (f_body f) ->
  aexec A0 (render_all (fs ++ [f])) = (seen_all (fs ++ [f]), Some A0).
Proof.
  intros F W P. unfold render_all, seen_all. rewrite !map_app, !concat_app.
  cbn [map List.concat]. rewrite !app_nil_r.
  fold (render_all fs) (seen_all fs). rewrite aexec_frames; [|assumption|].
  - rewrite <- (app_nil_r (render f)), aexec_frame by auto.
    rewrite aexec_nil by reflexivity. unfold before. cbn [fst snd]. now rewrite app_nil_r.
  - unfold render, render_header, be24. discriminate.
Qed.

Lemma h2_prompt fs f segs chk h :
  Forall wf_frame fs -> wf_frame f -> prompt (f_body f) ->
  List.concat segs = render_all (fs ++ [f]) -> safe_cuts (fs ++ [f]) segs ->
  exists p log, feed chk h new segs = (p, log, OEos) /\ flat log = seen_all (fs ++ [f]) /\
    state p = StFrameLength1.
Proof.
  intros F W P E S.
  assert (Forall wf_frame (fs ++ [f])) as F' by (apply Forall_app; auto).
  destruct (feed_sim chk h new segs ok_new) as (p & log & C & K & X).
  { rewrite E. now apply render_all_bytes. }
  { apply (safe_good (fs ++ [f]) segs [] []); [assumption|cbn; lia|now rewrite E, !app_nil_r|assumption]. }
  exists p, log. split; [exact C|].
  rewrite E, abs_new, aexec_prompt in X by assumption. injection X as X1 X2.
  split; [now rewrite X1|]. destruct K as (_ & _ & _ & ->).
  destruct p as [a b c d n s fn]. cbn [state_fn]. unfold abs in X2. cbn [state_fn] in X2.
  destruct fn; try reflexivity; discriminate X2.
Qed.
