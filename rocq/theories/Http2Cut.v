(* Cutting a sequence of frames outside the fragile fields keeps the automaton
   of Http2Sem.v outside the fragile states. *)

From Coq Require Import NArith ZArith List Bool Arith String Lia.
From Verif Require Import Bytes ByteStream Http2Model Http2Spec Http2Term Http2Sem Http2Sim Http2Run
     Http2Frame.
Import ListNotations.
Local Open Scope N_scope.

Lemma good_nil x : quiet x -> bad (a_st x) = false -> good x [].
Proof. intros Q B. exists x. rewrite aexec_nil by assumption. auto. Qed.

Lemma good_step x w s e y : ready x -> eat x w = Some (e, y) -> good y s -> good x (w :: s).
Proof.
  intros R E (q & G1 & G2). exists q. rewrite (aexec_eat _ _ _ _ _ R E), snd_before. auto.
Qed.

Lemma good_post x s e y : post x = Some (e, y) -> good y s -> good x s.
Proof.
  intros E (q & G1 & G2). exists q. rewrite (aexec_post _ _ _ _ E), snd_before. auto.
Qed.

Lemma good_eq x s e y s' : aexec x s = before e (aexec y s') -> good y s' -> good x s.
Proof. intros E (q & G1 & G2). exists q. rewrite E, snd_before. auto. Qed.

Lemma good_A0 : good A0 [].
Proof. apply good_nil; reflexivity. Qed.

(* data and padding *)
Lemma good_data s k b c d z l r :
  kind_of s = Some k -> z < 256 -> l < 2 ^ 24 -> z <= l -> N.of_nat (List.length r) <= l ->
  good (mkA s (enc l z) b c d) r.
Proof.
  intros K Z L ZL R.
  destruct (N.lt_ge_cases (z + N.of_nat (List.length r)) l) as [C|C].
  - rewrite <- (app_nil_r r). eapply good_eq; [apply (aexec_data _ k); assumption|].
    apply good_nil; [exact (kind_quiet _ _ _ _ _ _ K)|exact (kind_good _ _ K)].
  - destruct r as [|v r].
    { apply good_nil; [exact (kind_quiet _ _ _ _ _ _ K)|exact (kind_good _ _ K)]. }
    remember (v :: r) as q. assert (q <> []) as NE by (subst; discriminate). clear v r Heqq.
    rewrite <- (firstn_skipn (N.to_nat (l - z)) q).
    assert (N.of_nat (List.length (firstn (N.to_nat (l - z)) q)) = l - z) as E
      by (rewrite firstn_length, Nat.min_l by lia; lia).
    eapply good_eq.
    + apply (aexec_data_end _ k); try assumption; [lia|].
      now rewrite firstn_skipn.
    + assert (N.of_nat (List.length (skipn (N.to_nat (l - z)) q)) <= z) as W
        by (rewrite skipn_length; lia).
      generalize dependent (skipn (N.to_nat (l - z)) q). intros w W. unfold done.
      destruct (N.ltb_spec 0 z) as [D|D].
      * destruct (N.lt_ge_cases (N.of_nat (List.length w)) z) as [C2|C2].
        -- rewrite <- (app_nil_r w). exists (mkA StFramePadding (enc (z - N.of_nat (List.length w)) z) b c d).
           rewrite aexec_pad by (assumption || lia). rewrite aexec_nil by reflexivity. auto.
        -- rewrite <- (app_nil_r w). exists A0. rewrite aexec_pad_end; try lia; auto.
           destruct w; [cbn in C2; lia|discriminate].
      * destruct w; [exact good_A0|cbn in W; lia].
Qed.

Ltac nil_good := apply good_nil; reflexivity.
Ltac step_good := eapply good_step; [ready|reflexivity|].

(* n more bytes are fine *)
Definition fine (x : A) (n : N) : Prop :=
  forall r, N.of_nat (List.length r) <= n -> good x r.

Lemma fine_A0 : fine A0 0.
Proof. intros [|] H; [exact good_A0|cbn in H; lia]. Qed.

Lemma fine_eat x n :
  ready x -> bad (a_st x) = false ->
  (forall w, exists e y, eat x w = Some (e, y) /\ fine y (n - 1)) -> fine x n.
Proof.
  intros R B H [|w r] L.
  - apply good_nil; [apply R|assumption].
  - destruct (H w) as (e & y & E & F). apply (good_step _ _ _ _ _ R E), F. cbn in L. lia.
Qed.

Lemma fine_post x n e y : post x = Some (e, y) -> fine y n -> fine x n.
Proof. intros E F r L. exact (good_post _ _ _ _ E (F r L)). Qed.

Ltac fine1 := apply fine_eat; [ready|reflexivity|let q := fresh "q" in intros q; eexists _, _; split; [reflexivity|]].

Lemma fine_data s k b c d z l n :
  kind_of s = Some k -> z < 256 -> l < 2 ^ 24 -> z <= l -> n <= l -> fine (mkA s (enc l z) b c d) n.
Proof. intros K Z L ZL NL r R. apply (good_data _ k); try assumption. lia. Qed.

Lemma fine_headers a b c d l z n :
  a = enc l z -> z < 256 -> l < 2 ^ 24 -> 5 + z <= l -> n <= l ->
  fine (mkA StHeadersStreamId1 a b c d) n.
Proof.
  intros -> Z L ZL NL. do 4 fine1.
  apply fine_eat; [ready|reflexivity|]. intros w. unfold eat. rewrite adec_enc by (assumption || lia).
  eexists _, _. split; [reflexivity|]. eapply fine_post; [cbn [post]; exact eq_refl|].
  apply (fine_data _ KFragment); try reflexivity; lia.
Qed.

Lemma fine_push a b c d l z n :
  a = enc l z -> z < 256 -> l < 2 ^ 24 -> 4 + z <= l -> n <= l ->
  fine (mkA StPushPromiseStreamId1 a b c d) n.
Proof.
  intros -> Z L ZL NL. do 4 fine1.
  intros [|w r] R.
  - nil_good.
  - eapply good_eq.
    + eapply aexec_pre1; [reflexivity
        |unfold pre1; cbn [a_st a_a a_b a_c a_d]; rewrite adec_enc by (assumption || lia); reflexivity
        |reflexivity|reflexivity].
    + apply (good_data _ KFragment); try reflexivity; lia.
Qed.

Lemma fine_go_away_code a b c d l n :
  a = enc l 0 -> l < 2 ^ 24 -> 8 <= l -> n <= l - 4 ->
  fine (mkA StGoAwayErrorCode1 a b c d) n.
Proof.
  intros -> L ZL NL. do 4 fine1. eapply fine_post.
  - cbn [post]. rewrite adec_enc by (reflexivity || assumption). exact eq_refl.
  - rewrite plen_enc by reflexivity. destruct (N.ltb_spec 0 (l - 8)).
    + apply (fine_data _ KDebug); try reflexivity; lia.
    + replace (n - 1 - 1 - 1 - 1) with 0 by lia. exact fine_A0.
Qed.

(* The padding of a prefix. *)
Lemma prefix_cons {X} (w : X) x s u : w :: x = s ++ u -> s = [] \/ exists s', s = w :: s' /\ x = s' ++ u.
Proof. destruct s as [|v s]; [now left|]. intros H. injection H as <- ->. right. now exists s. Qed.

(* the pad length byte *)
Lemma good_pad s s' l z b c d r :
  (s, s') = (StDataPadLength, StDataData) \/
  (s, s') = (StHeadersPadLengthWithPriority, StHeadersStreamId1) \/
  (s, s') = (StHeadersPadLengthWithoutPriority, StHeadersCallback) \/
  (s, s') = (StPushPromisePadLength, StPushPromiseStreamId1) \/
  (s, s') = (StUnsupportedPadLength, StUnsupportedData) ->
  0 < l -> l < 2 ^ 24 -> z < 256 ->
  good (mkA s' (enc (l - 1) z) b c d) r -> good (mkA s (enc l 0) b c d) (z :: r).
Proof.
  intros P L1 L2 Z (y & G1 & G2). exists y. rewrite (f_pad s s') by assumption. auto.
Qed.

Lemma good_body f b s u :
  wf_body f b -> N.of_nat (List.length (payload b)) < 2 ^ 24 -> payload b = s ++ u ->
  ~ fragile1 b (9 + List.length s) ->
  good (mkA (start (type_of b) f) (enc (N.of_nat (List.length (payload b))) 0) 0 0 0) s.
Proof.
  intros W L E NF.
  assert (N.of_nat (List.length s) <= N.of_nat (List.length (payload b))) as LS
    by (rewrite E, app_length; lia).
  destruct b as [pad d|pad prio d|p|c|i v|pad rsv q d|d|rsv q c d|rsv n|d|t pad d];
    cbn [wf_body payload type_of fragile1] in *.
  - (* DATA *)
    destruct W as [W1 W2]. cbn [start]. rewrite W1.
    destruct pad as [z|]; cbn [padded is_some app] in *.
    + apply prefix_cons in E. destruct E as [->|(s' & -> & E)]; [nil_good|].
      apply good_pad with (s' := StDataData); try (auto || len).
      apply (good_data _ KData); try reflexivity; len.
    + apply (good_data _ KData); try reflexivity; len.
  - (* HEADERS *)
    destruct W as ([W1 W2] & W3 & W4). cbn [start]. rewrite W1, W3.
    destruct pad as [z|], prio as [p|]; cbn [padded is_some app] in *.
    + apply prefix_cons in E. destruct E as [->|(s' & -> & E)]; [nil_good|].
      apply good_pad with (s' := StHeadersStreamId1); try (auto || len).
      eapply fine_headers; [reflexivity|len|len|len|apply N.le_refl|len].
    + apply prefix_cons in E. destruct E as [->|(s' & -> & E)]; [nil_good|].
      apply good_pad with (s' := StHeadersCallback); try (auto || len).
      eapply good_post; [cbn [post]; exact eq_refl|].
      apply (good_data _ KFragment); try reflexivity; len.
    + eapply fine_headers; [reflexivity|len|len|len|apply N.le_refl|len].
    + apply (good_data _ KFragment); try reflexivity; len.
  - (* PRIORITY *)
    cbn [start]. assert (fine (mkA StPriorityStreamId1 (enc (N.of_nat (List.length (render_prio p))) 0) 0 0 0) 5)
      as F by (do 5 fine1; exact fine_A0).
    apply F. rewrite render_prio_length in LS. lia.
  - (* RST_STREAM *)
    cbn [start]. assert (fine (mkA StRstStreamErrorCode1 (enc (N.of_nat (List.length (be32 c))) 0) 0 0 0) 4) as F.
    { do 4 fine1. eapply fine_post; [reflexivity|]. exact fine_A0. }
    apply F. rewrite be32_length in LS. lia.
  - (* SETTINGS *)
    cbn [start].
    destruct s as [|x1 s]; [nil_good|step_good]. destruct s as [|x2 s]; [nil_good|step_good].
    destruct s as [|x3 s]; [nil_good|step_good]. destruct s as [|x4 s]; [exfalso; apply NF; right; cbn [List.length]; lia|step_good].
    destruct s as [|x5 s]; [exfalso; apply NF; right; cbn [List.length]; lia|step_good]. destruct s as [|x6 s]; [exfalso; apply NF; right; cbn [List.length]; lia|step_good].
    eapply good_post; [reflexivity|]. apply fine_A0. cbn in LS. lia.
  - (* PUSH_PROMISE *)
    destruct W as [[W1 W2] W3]. cbn [start]. rewrite W1.
    destruct pad as [z|]; cbn [padded is_some app] in *.
    + apply prefix_cons in E. destruct E as [->|(s' & -> & E)]; [nil_good|].
      apply good_pad with (s' := StPushPromiseStreamId1); try (auto || len).
      eapply fine_push; [reflexivity|len|len|len|apply N.le_refl|len].
    + eapply fine_push; [reflexivity|len|len|len|apply N.le_refl|len].
  - (* PING *) cbn [start]. apply (good_data _ KPing); try reflexivity; len.
  - (* GOAWAY *)
    cbn [start].
    destruct s as [|x1 s]; [nil_good|step_good]. destruct s as [|x2 s]; [exfalso; apply NF; right; cbn [List.length]; lia|step_good].
    destruct s as [|x3 s]; [exfalso; apply NF; right; cbn [List.length]; lia|step_good]. destruct s as [|x4 s]; [exfalso; apply NF; right; cbn [List.length]; lia|step_good].
    eapply fine_go_away_code; [reflexivity|len|len|apply N.le_refl|len].
  - (* WINDOW_UPDATE *)
    cbn [start]. match goal with |- good ?x s => assert (fine x 4) as F end.
    { do 4 fine1. eapply fine_post; [reflexivity|]. exact fine_A0. }
    apply F. rewrite be32_length in LS. lia.
  - (* CONTINUATION *) cbn [start]. apply (good_data _ KFragment); try reflexivity; len.
  - (* unknown *)
    destruct W as ([T1 T2] & W1 & W2). rewrite start_unknown, W1 by assumption.
    destruct pad as [z|]; cbn [padded is_some app] in *.
    + apply prefix_cons in E. destruct E as [->|(s' & -> & E)]; [nil_good|].
      apply good_pad with (s' := StUnsupportedData); try (auto || len).
      apply (good_data _ KUnsupported); try reflexivity; len.
    + apply (good_data _ KUnsupported); try reflexivity; len.
Qed.

(* ------------------------------------------------------------------ *)
(* Frames and sequences of frames                                       *)
(* ------------------------------------------------------------------ *)

Lemma render_header_length len t f rsv sid : List.length (render_header len t f rsv sid) = 9%nat.
Proof. reflexivity. Qed.

Lemma prefix_app {X} (a b s u : list X) : a ++ b = s ++ u ->
  (exists a', a = s ++ a' /\ a' <> [] /\ u = a' ++ b) \/ (exists s', s = a ++ s' /\ b = s' ++ u).
Proof.
  revert s. induction a as [|x a IH]; intros s E.
  - right. exists s. auto.
  - destruct s as [|y s].
    + left. exists (x :: a). cbn in E. subst u. repeat split. discriminate.
    + cbn in E. injection E as <- E. destruct (IH s E) as [(a' & -> & H & ->)|(s' & -> & ->)].
      * left. exists a'. auto.
      * right. exists s'. auto.
Qed.

(* Part of a frame header. *)
Lemma good_header len t f rsv sid s u : render_header len t f rsv sid = s ++ u -> u <> [] ->
  ~ (5 < List.length s < 9)%nat -> good A0 s.
Proof.
  intros E U NF. assert (List.length s < 9)%nat as L.
  { apply (f_equal (@List.length _)) in E. rewrite render_header_length, app_length in E.
    destruct u; [congruence|cbn in E; lia]. }
  clear E U.
  do 6 (destruct s as [|? s]; [nil_good|step_good]).
  cbn [List.length] in *. lia.
Qed.

Lemma good_frame f s u : wf_frame f -> render f = s ++ u -> ~ fragile1 (f_body f) (List.length s) ->
  good A0 s.
Proof.
  intros (F1 & F2 & F3 & F4 & F5) E NF. unfold render in E.
  apply prefix_app in E. destruct E as [(a' & E & NE & ->)|(s' & -> & E)].
  - apply (good_header _ _ _ _ _ _ _ E NE). intros H. apply NF. left. lia.
  - rewrite app_length, render_header_length in NF.
    eapply good_eq; [apply aexec_header; try assumption; exact (type_lt _ _ F3)|].
    apply (good_body _ _ _ _ F3 F5 E NF).
Qed.

Lemma wf_frame_bytes f : wf_frame f -> bytes (render f).
Proof.
  intros (F1 & F2 & F3 & F4 & F5). unfold render, render_header, be24, be32.
  apply Forall_app. split; [|assumption]. pose proof (type_lt _ _ F3).
  repeat (apply Forall_cons; [try apply byte_mod; assumption|]). constructor.
Qed.

Lemma render_all_bytes fs : Forall wf_frame fs -> bytes (render_all fs).
Proof.
  unfold render_all. induction 1; cbn [map List.concat]; [constructor|]. apply Forall_app. split; [|assumption].
  now apply wf_frame_bytes.
Qed.

Lemma aexec_frames fs r : Forall wf_frame fs -> r <> [] ->
  aexec A0 (render_all fs ++ r) = before (seen_all fs) (aexec A0 r).
Proof.
  unfold render_all, seen_all. intros F R. induction F as [|f fs W F IH]; cbn [map List.concat app].
  - now rewrite before_nil.
  - rewrite <- app_assoc, aexec_frame; [|assumption|].
    + rewrite IH. now rewrite before_before.
    + right. intros E. apply app_eq_nil in E. now apply R.
Qed.

(* A prefix of a sequence of frames that does not end in a fragile field. *)
Lemma good_frames fs : Forall wf_frame fs -> forall s u, render_all fs = s ++ u ->
  ~ fragile fs (List.length s) -> good A0 s.
Proof.
  intros F. induction F as [|f fs W F IH]; intros s u E NF.
  - cbn in E. symmetry in E. apply app_eq_nil in E. destruct E as [-> ->]. exact good_A0.
  - unfold render_all in E. cbn [map List.concat] in E. fold (render_all fs) in E.
    cbn [fragile] in NF.
    apply prefix_app in E. destruct E as [(a' & E & NE & _)|(s' & -> & E)].
    + assert (List.length s < List.length (render f))%nat as L.
      { rewrite E, app_length. destruct a'; [congruence|cbn; lia]. }
      apply Nat.ltb_lt in L. rewrite L in NF. exact (good_frame _ _ _ W E NF).
    + rewrite app_length in NF. destruct (Nat.ltb_spec (List.length (render f) + List.length s') (List.length (render f))) as [C|C]; [lia|].
      replace (List.length (render f) + List.length s' - List.length (render f))%nat
        with (List.length s') in NF by lia.
      destruct s' as [|w s'].
      * rewrite app_nil_r. apply (good_frame f (render f) []); [assumption|now rewrite app_nil_r|].
        intros H. clear - H W. destruct W as (F1 & F2 & F3 & F4 & F5).
        assert (9 <= List.length (render f))%nat as L.
        { unfold render. rewrite app_length, render_header_length. lia. }
        destruct H as [H|H]; [lia|]. unfold render in H. rewrite app_length, render_header_length in H.
        destruct (f_body f); try exact H; cbn [payload be16 be32 app List.length] in H; lia.
      * eapply good_eq; [apply aexec_frame; [assumption|right; discriminate]|].
        exact (IH _ _ E NF).
Qed.

Lemma fragile_zero fs : Forall wf_frame fs -> ~ fragile fs 0.
Proof.
  intros F. induction F as [|f fs W F IH]; cbn [fragile]; [tauto|].
  destruct (Nat.ltb_spec 0 (List.length (render f))) as [C|C].
  - intros [H|H]; [lia|]. destruct (f_body f); lia.
  - unfold render in C. rewrite app_length, render_header_length in C. lia.
Qed.

(* After all frames: one more byte is fine. *)
Lemma fragile_end fs : Forall wf_frame fs -> forall n, ~ fragile fs (List.length (render_all fs) + n).
Proof.
  intros F. induction F as [|f fs W F IH]; intros n; cbn [fragile]; [tauto|].
  unfold render_all. cbn [map List.concat]. fold (render_all fs). rewrite app_length.
  match goal with |- context [Nat.ltb ?a ?b] => destruct (Nat.ltb_spec a b); [lia|] end.
  match goal with |- ~ fragile fs ?a => replace a with (List.length (render_all fs) + n)%nat by lia end.
  apply IH.
Qed.

Lemma good_prefix fs s u tail : Forall wf_frame fs -> (List.length tail <= 5)%nat ->
  render_all fs ++ tail = s ++ u -> ~ fragile fs (List.length s) -> good A0 s.
Proof.
  intros F T E NF. apply prefix_app in E. destruct E as [(a' & E & _ & _)|(s' & -> & E)].
  - exact (good_frames fs F _ _ E NF).
  - assert (List.length s' <= 5)%nat as L by (apply (f_equal (@List.length _)) in E; rewrite app_length in E; lia).
    destruct s' as [|w s'].
    + rewrite app_nil_r. apply (good_frames fs F _ []); [now rewrite app_nil_r|].
      pose proof (fragile_end fs F 0) as X. now rewrite Nat.add_0_r in X.
    + eapply good_eq; [apply aexec_frames; [assumption|discriminate]|].
      clear E NF. cbn [List.length] in L.
      step_good. do 5 (destruct s' as [|? s']; [nil_good|]; cbn [List.length] in L; try lia; step_good).
Qed.

(* Safe cuts are good cuts. *)
Lemma safe_good fs segs u tail : Forall wf_frame fs -> (List.length tail <= 5)%nat ->
  render_all fs ++ tail = List.concat segs ++ u -> safe_cuts fs segs -> good_cuts A0 segs.
Proof.
  intros F T E S b a Eb. rewrite Eb, concat_app, <- app_assoc in E.
  apply (good_prefix fs _ _ tail F T E). exact (S b a Eb).
Qed.
