(* Programs at work on a connection: proofs. *)

From Coq Require Import NArith List Bool Arith Lia.
From Verif Require Import Bytes Http1Model Http1Spec Http1Wire Http1Reader Http1Cuts Http1Conn Http1Program
  Http1Shift Http1ConnFacts Http1Understood Http1CutsFacts Http1CutsMatter.
Import ListNotations.
Local Open Scope N_scope.

(* ------------------------------------------------------------------ *)
(* Pieces                                                               *)
(* ------------------------------------------------------------------ *)

Lemma left_of_concat n : forall segs, List.concat (left_of n segs) = skipn n (List.concat segs).
Proof.
  intros segs. revert n. induction segs as [|s more IH]; intros n; cbn [left_of List.concat]; [now rewrite skipn_nil|].
  rewrite skipn_app. destruct (Nat.ltb_spec n (List.length s)).
  - cbn [List.concat]. now replace (n - List.length s)%nat with 0%nat by lia.
  - rewrite IH. rewrite (skipn_all2 s) by (unfold byte in *; lia). reflexivity.
Qed.

Lemma left_of_0 n : forall segs, left_of n (left_of 0 segs) = left_of n segs.
Proof.
  intros segs. revert n. induction segs as [|s more IH]; intros n; cbn [left_of]; [reflexivity|].
  destruct s as [|b s]; cbn [List.length Nat.ltb Nat.leb skipn].
  - now rewrite IH, Nat.sub_0_r.
  - reflexivity.
Qed.

Lemma skipn_twice {A} a : forall b (s : list A), skipn a (skipn b s) = skipn (b + a) s.
Proof.
  induction b as [|b IH]; intros s; [reflexivity|]. destruct s as [|x s]; [now rewrite !skipn_nil|]. exact (IH s).
Qed.

Lemma left_of_skip k m s more : (k <= List.length s)%nat ->
  left_of m (skipn k s :: more) = left_of (k + m) (s :: more).
Proof.
  intros L. cbn [left_of]. rewrite skipn_length, skipn_twice.
  destruct (Nat.ltb_spec m (List.length s - k)), (Nat.ltb_spec (k + m) (List.length s)); try lia.
  - reflexivity.
  - f_equal. lia.
Qed.

Lemma first_part_0 : forall segs, first_part (left_of 0 segs) = first_part segs.
Proof.
  induction segs as [|s more IH]; [reflexivity|]. destruct s as [|b s]; cbn [left_of List.length Nat.ltb Nat.leb skipn].
  - exact IH.
  - reflexivity.
Qed.

Lemma concat_0 segs : List.concat (left_of 0 segs) = List.concat segs.
Proof. apply left_of_concat. Qed.

Lemma read_next_0 clen l k segs : read_next clen l k (left_of 0 segs) = read_next clen l k segs.
Proof. unfold read_next, read_cut_head. now rewrite concat_0, first_part_0. Qed.

Lemma read_all_0 n clen next : forall l segs, read_all n clen next l (left_of 0 segs) = read_all n clen next l segs.
Proof.
  induction n as [|n IH]; intros l segs; cbn [read_all]; rewrite concat_0; [reflexivity|].
  destruct (next l) as [k|]; [|reflexivity]. rewrite read_next_0.
  destruct (read_next clen l k segs) as [x [rest| | |]]; try reflexivity. now rewrite left_of_0.
Qed.

(* ------------------------------------------------------------------ *)
(* One message                                                          *)
(* ------------------------------------------------------------------ *)

Lemma skipn_min {A} n (s : list A) : skipn n s = skipn (Nat.min n (List.length s)) s.
Proof.
  destruct (Nat.min_spec n (List.length s)) as [[_ ->]|[L ->]]; [reflexivity|].
  now rewrite !skipn_all2 by lia.
Qed.

Lemma turn_left h fuel : forall p log segs p' log' segs' o,
  turn fuel h p log segs = (p', log', segs', o) ->
  (o = OFinished -> exists n, (n + List.length (List.concat segs') = List.length (List.concat segs))%nat /\
     left_of 0 segs' = left_of n segs) /\
  (o = OEos -> segs' = []).
Proof.
  induction fuel as [|fuel IH]; intros p log [|seg more] p' log' segs' o E; cbn [turn] in E;
    try (injection E as <- <- <- <-; split; [discriminate|]; (discriminate || reflexivity)).
  destruct (resume h p log seg) as [[p1 log1] [[n|n|n]|e|f|]];
    try (injection E as <- <- <- <-; split; discriminate).
  - destruct (IH _ _ _ _ _ _ _ E) as [A B]. split; [|exact B].
    intros O. destruct (A O) as (m & M1 & M2). rewrite skipn_min in M1, M2.
    set (k := Nat.min n (List.length seg)) in *.
    assert (K : (k <= List.length seg)%nat) by apply Nat.le_min_r.
    exists (k + m)%nat. cbn [List.concat] in *. rewrite app_length in *. rewrite skipn_length in M1.
    split; [lia|]. now rewrite M2, left_of_skip.
  - destruct (IH _ _ _ _ _ _ _ E) as [A B]. split; [|exact B].
    intros O. destruct (A O) as (m & M1 & M2).
    exists (List.length seg + m)%nat. cbn [List.concat left_of]. rewrite app_length. split; [lia|].
    destruct (Nat.ltb_spec (List.length seg + m) (List.length seg)); [lia|].
    rewrite M2. f_equal. lia.
  - injection E as <- <- <- <-. split; [|discriminate]. intros _.
    rewrite skipn_min. set (k := Nat.min n (List.length seg)) in *.
    assert (K : (k <= List.length seg)%nat) by apply Nat.le_min_r.
    exists k. cbn [List.concat]. rewrite !app_length, skipn_length. split; [lia|].
    rewrite left_of_skip by exact K. now rewrite Nat.add_0_r.
Qed.

Lemma understood_kind r f : understood eq r f -> understood same_kind r f.
Proof.
  destruct f as [[[p' log] rest] o]. unfold understood. destruct (snd r); auto.
  intros ((e' & E & ->) & X). split; [|exact X]. exists e. split; [exact E|]. now destruct e.
Qed.

Lemma turn_kind h clen k p log segs p' log' segs' o :
  (forall l, h_clen h l = clen (flat l)) -> segs <> [] ->
  (forall bd, k = AMultipart bd -> ~ In 13 bd /\ N.of_nat (List.length bd) <= 2 ^ 14) ->
  turn (calls segs) h (ready k p) log segs = (p', log', segs', o) ->
  exists evs rest, log' = log ++ evs /\
    understood same_kind (read_next clen (flat log) k segs) (p', evs, rest, o) /\
    (k = AHead -> hok (strip (List.concat segs)) = true ->
     understood same_kind (read_head (List.concat segs)) (p', evs, rest, o)) /\
    (o = OFinished -> rest = List.concat segs' /\ segs' <> [] /\
       left_of 0 segs' = left_of (List.length (List.concat segs) - List.length rest) segs) /\
    (o = OEos -> segs' = []).
Proof.
  intros Hc NE B T.
  destruct (turn_client _ _ _ _ _ _ _ _ _ T) as (rest & C & R).
  destruct (turn_left _ _ _ _ _ _ _ _ _ T) as [Lf Ei].
  rewrite <- (app_nil_r log) in C. rewrite client_shift in C.
  destruct (client (calls segs) (shift log h) (ready k p) [] segs) as [[[p1 evs] rest1] o1] eqn:F.
  injection C as <- <- <- <-. exists evs, rest1. split; [reflexivity|].
  assert (F' : feed (shift log h) (ready k p) segs = (p1, evs, rest1, o1)) by exact F.
  split; [|split; [|split; [|exact Ei]]].
  - rewrite <- F'. destruct k as [| |bd|n]; cbn [read_next ready].
    + apply understood_kind. now apply cut_head_understood.
    + apply understood_kind. now apply chunked_understood.
    + destruct (B bd eq_refl) as [B1 B2]. apply multipart_understood; auto.
      intros l. cbn [shift h_clen]. now rewrite Hc, flat_app.
    + apply understood_kind. now apply url_understood.
  - intros -> K. rewrite <- F'. cbn [ready]. apply understood_kind. apply head_understood; auto.
  - intros O. destruct (R O) as [R1 R2]. split; [exact R1|]. split; [exact R2|].
    destruct (Lf O) as (n & N1 & N2). rewrite N2. f_equal. rewrite R1. lia.
Qed.

(* ------------------------------------------------------------------ *)
(* All messages                                                         *)
(* ------------------------------------------------------------------ *)

Lemma nearly_app x l L : nearly l L -> nearly (x ++ l) (x ++ L).
Proof. intros (k & d & ->). exists k, d. now rewrite app_assoc. Qed.

Lemma goes_step r p' log evs rest segs' o : (forall y, snd r <> Complete y) ->
  (o = OEos -> segs' = []) ->
  understood same_kind r (p', evs, rest, o) -> goes (flat log ++ fst r, snd r) (p', log ++ evs, segs', o).
Proof.
  intros NC Ei U. unfold understood in U. unfold goes. cbn [fst snd]. rewrite flat_app.
  destruct (snd r) as [y|a|e|].
  - destruct (NC y eq_refl).
  - destruct U as (-> & -> & _ & ->). repeat split; auto.
  - destruct U as (U & V & W). repeat split; auto. now apply nearly_app.
  - destruct U as (U & V). split; auto. now apply nearly_app.
Qed.

Lemma work_goes h clen next : (forall l, h_clen h l = clen (flat l)) -> good_boundaries next ->
  forall n p log segs, segs <> [] ->
  goes (read_all n clen next (flat log) segs) (work n h next p log segs).
Proof.
  intros Hc G. induction n as [|n IH]; intros p log segs NE; cbn [work read_all].
  { now repeat split. }
  destruct (next (flat log)) as [k|] eqn:K; [|now repeat split].
  destruct (turn (calls segs) h (ready k p) log segs) as [[[p1 log1] segs1] o1] eqn:T.
  assert (B : forall bd, k = AMultipart bd -> ~ In 13 bd /\ N.of_nat (List.length bd) <= 2 ^ 14)
    by (intros bd ->; exact (G _ _ K)).
  destruct (turn_kind h clen k p log segs _ _ _ _ Hc NE B T) as (evs & rest & -> & U & _ & Fi & Ei).
  destruct (read_next clen (flat log) k segs) as [x [y|a|e|]] eqn:Rn.
  - cbn in U. destruct U as (-> & <- & <- & St). destruct (Fi eq_refl) as (R1 & R2 & R3).
    rewrite <- R3, read_all_0, <- flat_app. apply IH. exact R2.
  - assert (E : o1 = OEos) by apply U. pose proof (goes_step (x, Partial a) p1 log evs rest segs1 o1) as X.
    cbn [fst snd] in X. rewrite E in *. apply X; auto. discriminate.
  - assert (E : exists e', o1 = OError e') by (destruct U as ((e' & -> & _) & _); eauto). destruct E as [e' E].
    pose proof (goes_step (x, Wrong e) p1 log evs rest segs1 o1) as X.
    cbn [fst snd] in X. rewrite E in *. apply X; auto. discriminate.
  - assert (E : exists e', o1 = OFault e') by (destruct U as ((e' & ->) & _); eauto). destruct E as [e' E].
    pose proof (goes_step (x, Crash) p1 log evs rest segs1 o1) as X.
    cbn [fst snd] in X. rewrite E in *. apply X; auto. discriminate.
Qed.

Lemma work_stream h clen next : (forall l, h_clen h l = clen (flat l)) -> good_boundaries next ->
  forall n p log segs, segs <> [] -> plain_heads n clen next (flat log) (List.concat segs) ->
  goes (read_stream n clen next (flat log) (List.concat segs)) (work n h next p log segs).
Proof.
  intros Hc G. induction n as [|n IH]; intros p log segs NE P; cbn [work read_stream plain_heads] in *.
  { now repeat split. }
  destruct (next (flat log)) as [k|] eqn:K; [|now repeat split].
  destruct (turn (calls segs) h (ready k p) log segs) as [[[p1 log1] segs1] o1] eqn:T.
  assert (B : forall bd, k = AMultipart bd -> ~ In 13 bd /\ N.of_nat (List.length bd) <= 2 ^ 14)
    by (intros bd ->; exact (G _ _ K)).
  destruct (turn_kind h clen k p log segs _ _ _ _ Hc NE B T) as (evs & rest & -> & U & Uh & Fi & Ei).
  destruct P as [Ph P]. clear T.
  set (r := match k with AHead => _ | _ => _ end) in *.
  assert (U' : understood same_kind r (p1, evs, rest, o1)).
  { subst r. destruct k; try exact U. apply Uh; [reflexivity|]. now apply Ph. }
  clearbody r. clear U Uh Ph. rename U' into U.
  destruct r as [x [y|a|e|]].
  - cbn in U. destruct U as (-> & <- & <- & St). destruct (Fi eq_refl) as (R1 & R2 & R3).
    rewrite R1, <- flat_app in *. apply IH; assumption.
  - assert (E : o1 = OEos) by apply U. pose proof (goes_step (x, Partial a) p1 log evs rest segs1 o1) as X.
    cbn [fst snd] in X. rewrite E in *. apply X; auto. discriminate.
  - assert (E : exists e', o1 = OError e') by (destruct U as ((e' & -> & _) & _); eauto). destruct E as [e' E].
    pose proof (goes_step (x, Wrong e) p1 log evs rest segs1 o1) as X.
    cbn [fst snd] in X. rewrite E in *. apply X; auto. discriminate.
  - assert (E : exists e', o1 = OFault e') by (destruct U as ((e' & ->) & _); eauto). destruct E as [e' E].
    pose proof (goes_step (x, Crash) p1 log evs rest segs1 o1) as X.
    cbn [fst snd] in X. rewrite E in *. apply X; auto. discriminate.
Qed.

Lemma program_understood h clen next n p segs :
  (forall l, h_clen h l = clen (flat l)) -> good_boundaries next -> segs <> [] ->
  goes (read_all n clen next [] segs) (work n h next p [] segs).
Proof. intros Hc G NE. exact (work_goes h clen next Hc G n p [] segs NE). Qed.

Lemma program_stream h clen next n p segs :
  (forall l, h_clen h l = clen (flat l)) -> good_boundaries next -> segs <> [] ->
  plain_heads n clen next [] (List.concat segs) ->
  goes (read_stream n clen next [] (List.concat segs)) (work n h next p [] segs).
Proof. intros Hc G NE. exact (work_stream h clen next Hc G n p [] segs NE). Qed.
