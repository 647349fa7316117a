(* The automaton of Http2FullSem.v reports what Http2Full.v says. *)

From Coq Require Import NArith List Bool Arith String Lia.
From Verif Require Import Bytes ByteStream Http2Model Http2Spec Http2Sem Http2Sim
  Http2Frame Http2Any Http2Raw Http2AnyFacts Http2Full Http2FullSem Http2FullSim.
Import ListNotations.
Local Open Scope N_scope.

(* Not between two frames. *)
Definition awake (x : F) : Prop := f_st x <> StFrameLength1.

(* x reads s as q says. *)
Definition fg (chk : bool) (cut : nat -> bool) (x : F) (s : list byte) (q : got) : Prop :=
  match q with
  | Frame e r => fexec chk cut x s = bef e (fexec chk cut F0 r) /\ exists u, s = u ++ r
  | Awaits a e => exists y, fexec chk cut x s = (e, Some y) /\ f_st y = a /\ awake y
  | Overflow e => fexec chk cut x s = (e, None)
  end.

Section Facts.
Context (chk : bool) (cut : nat -> bool) (Ends : cut 0%nat = true).

Notation fexec := (fexec chk cut).
Notation fg := (fg chk cut).

Lemma bef_pair e e' (o : option F) : bef e (e', o) = (e ++ e', o).
Proof. reflexivity. Qed.

Lemma fg_say x s x' s' u e q :
  s = u ++ s' -> fexec x s = bef e (fexec x' s') -> fg x' s' q -> fg x s (saying e q).
Proof.
  intros -> E G. destruct q as [e' r|at_ e'|e']; cbn [saying fg] in *.
  - destruct G as [G (v & ->)]. rewrite E, G, bef_bef. split; [reflexivity|].
    exists (u ++ v). now rewrite app_assoc.
  - destruct G as (y & G & B). exists y. rewrite E, G, bef_pair. auto.
  - now rewrite E, G, bef_pair.
Qed.

Lemma fg_skip x s x' s' u q :
  s = u ++ s' -> fexec x s = fexec x' s' -> fg x' s' q -> fg x s q.
Proof.
  intros E1 E2 G. replace q with (saying [] q) by now destruct q.
  eapply fg_say; try eassumption. now rewrite bef_nil.
Qed.

(* ------------------------------------------------------------------ *)
(* Lengths, data                                                        *)
(* ------------------------------------------------------------------ *)

(* what is left of a length *)
Lemma fg_less len z k x s use :
  len < 2 ^ 24 -> z < 256 -> 0 < k -> k <= 2 ^ 24 ->
  (forall len', len' < 2 ^ 24 -> dec chk (enc len z) k = Some (enc len' z) -> fg x s (use len')) ->
  (dec chk (enc len z) k = None -> fexec x s = ([], None)) ->
  fg x s (less chk len k use).
Proof.
  intros L Z K K2 H1 H2. unfold less. destruct (N.leb_spec k len) as [C|C].
  - apply H1; [lia|]. now apply dec_enc.
  - destruct chk; cbn [fg].
    + apply H2. now apply dec_over.
    + apply H1; [lia|]. now apply dec_wrap.
Qed.

Lemma fg_pad z b c d s : z < 256 -> fg (fdone z b c d) s (pad_bytes z s).
Proof.
  intros Z. unfold pad_bytes, fdone, done. destruct (N.ltb_spec 0 z) as [P|P].
  - destruct (N.ltb_spec (N.of_nat (List.length s)) z) as [L|L].
    + exists (Run (mkA StFramePadding (enc (z - N.of_nat (List.length s)) z) b c d)).
      split; [|split; [reflexivity|discriminate]].
      rewrite <- (app_nil_r s) at 1. rewrite fexec_pad by lia. apply fexec_nil; reflexivity.
    + split; [|exists (firstn (N.to_nat z) s); now rewrite firstn_skipn].
      rewrite bef_nil. rewrite <- (firstn_skipn (N.to_nat z) s) at 1.
      apply fexec_pad_end; try lia.
      * rewrite firstn_length. lia.
      * rewrite firstn_skipn. destruct s; [cbn in L; lia|discriminate].
  - assert (z = 0) as -> by lia. destruct (N.ltb_spec (N.of_nat (List.length s)) 0); [lia|].
    cbn [N.to_nat skipn fg]. split; [now rewrite bef_nil|now exists []].
Qed.

Lemma fg_data st k len z b c d s : kind_of st = Some k -> len < 2 ^ 24 -> z < 256 ->
  fg (Run (mkA st (enc len z) b c d)) s (full_data chk st k len z s).
Proof.
  intros K L Z. unfold full_data. destruct s as [|v s'] eqn:Es.
  { exists (Run (mkA st (enc len z) b c d)).
    rewrite fexec_nil; [|exact (fkind_quiet _ _ _ _ _ _ _ K)|exact (fkind_plain _ _ _ _ _ _ K)].
    split; [reflexivity|]. split; [reflexivity|exact (kind_not _ _ K)]. }
  rewrite <- Es. assert (s <> []) as NE by (rewrite Es; discriminate).
  assert (forall n, n < 2 ^ 24 -> fits chk n z -> len = len24 n z ->
    fg (Run (mkA st (enc len z) b c d)) s
      (if N.of_nat (List.length s) <? n then Awaits st (map (FByte k) s)
       else saying (item k (firstn (N.to_nat n) s)) (pad_bytes z (skipn (N.to_nat n) s)))) as X.
  { intros n N H ->. destruct (N.ltb_spec (N.of_nat (List.length s)) n) as [M|M].
    - exists (Run (mkA st (enc (len24 (n - N.of_nat (List.length s)) z) z) b c d)).
      split; [|split; [reflexivity|exact (kind_not _ _ K)]].
      rewrite <- (app_nil_r s) at 1. rewrite (fexec_data chk cut st k) by assumption.
      rewrite fexec_nil; [|exact (fkind_quiet _ _ _ _ _ _ _ K)|exact (fkind_plain _ _ _ _ _ _ K)].
      rewrite bef_pair. now rewrite app_nil_r.
    - set (q := N.to_nat n).
      assert (List.length (firstn q s) = q) as Ln by (rewrite firstn_length; unfold q; lia).
      apply (fg_say _ _ (fdone z b c d) (skipn q s) (firstn q s)).
      + now rewrite firstn_skipn.
      + rewrite <- (firstn_skipn q s) at 1. unfold item. apply fexec_data_end; try assumption.
        * rewrite Ln. unfold q. lia.
        * now rewrite firstn_skipn.
      + now apply fg_pad. }
  unfold less. destruct (N.leb_spec z len) as [C|C].
  - apply X; [lia|unfold fits; lia|]. unfold len24. destruct (N.ltb_spec (len - z + z) (2 ^ 24)); lia.
  - destruct chk eqn:Ec; cbn [fg].
    + rewrite Es. cbn [Http2FullSem.fexec].
      pose proof (fkind_quiet true _ _ (enc len z) b c d K) as Q. unfold fquiet in Q.
      pose proof (fkind_plain _ _ (enc len z) b c d K) as P. unfold plain in P. rewrite Q, P.
      assert (forall (X : bool) (y : F), (if X then y else y) = y) as -> by now intros [].
      rewrite (fkind_pre1 _ _ _ _ _ _ _ K), (fkind_pre2 _ _ _ _ _ _ _ K).
      rewrite plen_enc, pads_enc by assumption. unfold sub32.
      destruct (N.leb_spec z len); [lia|reflexivity].
    + assert (256 < 2 ^ 24) by reflexivity.
      apply X; [lia|discriminate|]. unfold len24.
      destruct (N.ltb_spec (2 ^ 24 + len - z + z) (2 ^ 24)); lia.
Qed.

(* ------------------------------------------------------------------ *)
(* Incomplete fields                                                    *)
(* ------------------------------------------------------------------ *)

(* Nothing is reported of fewer bytes than there are states in ats, and these are
   the states. *)
Definition silent (ats : list pstate) (x : F) : Prop :=
  forall s a, nth_error ats (List.length s) = Some a ->
  exists y, fexec x s = ([], Some y) /\ f_st y = a /\ awake y.

Lemma silent_0 x : silent [] x.
Proof. intros [|v s] a L; discriminate L. Qed.

Lemma silent_1 x : fquiet chk x -> awake x -> plain x -> silent [f_st x] x.
Proof.
  intros Q W P [|v s] a L; [|destruct s; discriminate L]. injection L as <-. exists x. split; [now apply fexec_nil|].
  split; [reflexivity|exact W].
Qed.

Lemma silent_stuck s1 ats : Forall (eq (onward s1)) ats -> s1 <> StFrameLength1 -> silent (s1 :: ats) (Stuck s1).
Proof.
  intros Al W s a L. eexists. split; [apply stuck_exec|].
  assert (onward s1 <> StFrameLength1) as W' by (destruct s1; discriminate || exact W).
  destruct s as [|v s]; cbn [List.length nth_error] in L.
  - injection L as <-. split; [reflexivity|exact W].
  - apply nth_error_In in L. rewrite Forall_forall in Al. rewrite <- (Al _ L). split; [reflexivity|exact W'].
Qed.

Lemma silent_step a ats x : f_st x = a ->
  fready chk x -> awake x -> plain x ->
  (forall v, exists y, feat chk x v = Some ([], y) /\ silent ats y) -> silent (a :: ats) x.
Proof.
  intros <- R W P H [|v s] a' L; cbn [List.length nth_error] in L.
  - injection L as <-. exists x. split; [apply fexec_nil; [apply R|exact P]|]. split; [reflexivity|exact W].
  - destruct (H v) as (y & E & Y). destruct (Y s a' L) as (y' & E' & W').
    exists y'. split; [|exact W']. rewrite (fexec_eat chk cut x v s [] y) by auto. now rewrite bef_nil.
Qed.

Lemma silent_fragile a ats x :
  fready chk x -> silent (a :: ats) (fcut x) ->
  (forall v, exists y, feat chk x v = Some ([], y) /\ silent ats y) -> silent (a :: ats) x.
Proof.
  intros R P H s a' L. destruct (cut (List.length s)) eqn:C.
  - rewrite fexec_cut; [|exact C|apply R]. now apply P.
  - destruct s as [|v s]; [cbn [List.length] in C; congruence|].
    destruct (H v) as (y & E & Y). destruct (Y s a' L) as (y' & E' & W').
    exists y'. split; [|exact W']. rewrite (fexec_eat chk cut x v s [] y) by auto. now rewrite bef_nil.
Qed.

(* a field that may be cut *)
Ltac silent1 :=
  apply silent_step; [reflexivity|fready|discriminate|reflexivity|];
  intros ?; eexists; split; [reflexivity|].
Ltac silents :=
  repeat silent1;
  first [apply silent_0
        |match goal with |- silent _ ?x => apply (silent_1 x); [reflexivity|discriminate|reflexivity] end].

Ltac short :=
  apply silent_fragile; [fready|silents|]; intros ?; eexists; split; [reflexivity|].
Ltac stuck :=
  apply silent_fragile; [fready|apply silent_stuck; [repeat constructor|discriminate]|];
  intros ?; eexists; split; [reflexivity|].

Lemma silent_id a b c d :
  silent [StFrameStreamId1; StFrameStreamId2; StFrameStreamId3; StFrameStreamId4]
         (Run (mkA StFrameStreamId1 a b c d)).
Proof. silent1. do 3 short. apply silent_0. Qed.

Lemma silent_go_away a b c d :
  silent [StGoAwayStreamId1; StGoAwayStreamId2; StGoAwayStreamId3; StGoAwayStreamId3]
         (Run (mkA StGoAwayStreamId1 a b c d)).
Proof. silent1. do 3 stuck. apply silent_0. Qed.

Lemma silent_code a b c d :
  silent [StGoAwayErrorCode1; StGoAwayErrorCode2; StGoAwayErrorCode3; StGoAwayErrorCode4]
         (Run (mkA StGoAwayErrorCode1 a b c d)).
Proof. silents. Qed.

Lemma silent_setting a b c d :
  silent [StSettingsId1; StSettingsId2; StSettingsValue1; StSettingsValue2; StSettingsValue3; StSettingsValue3]
         (Run (mkA StSettingsId1 a b c d)).
Proof. do 3 silent1. do 3 stuck. apply silent_0. Qed.

Lemma fg_fixed' x ats s use : bytes s -> silent ats x ->
  (forall u r, s = u ++ r -> List.length u = List.length ats -> bytes u -> bytes r -> fg x (u ++ r) (use u r)) ->
  fg x s (fields ats s use).
Proof.
  intros B H1 H2. unfold fields. destruct (nth_error ats (List.length s)) as [a|] eqn:L; [now apply H1|].
  apply nth_error_None in L. set (k := List.length ats) in *.
  rewrite <- (firstn_skipn k s) at 1. destruct (bytes_cut k s B). apply H2; try assumption.
  - now rewrite firstn_skipn.
  - rewrite firstn_length. lia.
Qed.

Lemma fg_fixed_long x ats s use : bytes s -> (List.length ats <= List.length s)%nat ->
  (forall u r, s = u ++ r -> List.length u = List.length ats -> bytes u -> bytes r -> fg x (u ++ r) (use u r)) ->
  fg x s (fields ats s use).
Proof.
  intros B L H2. unfold fields. rewrite (proj2 (nth_error_None ats (List.length s)) L).
  set (k := List.length ats) in *.
  rewrite <- (firstn_skipn k s) at 1. destruct (bytes_cut k s B). apply H2; try assumption.
  - now rewrite firstn_skipn.
  - rewrite firstn_length. lia.
Qed.

Lemma fg_fixed x ats s use : bytes s -> silent ats x ->
  (forall u r, List.length u = List.length ats -> bytes u -> bytes r -> fg x (u ++ r) (use u r)) ->
  fg x s (fields ats s use).
Proof. intros B H1 H2. apply fg_fixed'; auto. Qed.

(* ------------------------------------------------------------------ *)
(* Fields                                                               *)
(* ------------------------------------------------------------------ *)

Ltac ffield v V :=
  unfold be32, be16; cbn [app];
  pose proof (cat4_be32 v V) as H; unfold cat4 in H; revert H;
  generalize (v / 2 ^ 24 mod 256); intros v1;
  generalize (v / 2 ^ 16 mod 256); intros v2;
  generalize (v / 2 ^ 8 mod 256); intros v3;
  generalize (v mod 256); intros v4 H;
  repeat feat1; rewrite !bef_bef; cbn [app]; rewrite bef_nil, H; reflexivity.

Lemma ff_headers v a c d r : v < 2 ^ 32 ->
  fexec (Run (mkA StHeadersStreamId1 a 0 c d)) (be32 v ++ r) = fexec (Run (mkA StHeadersWeight a v c d)) r.
Proof. intros V. ffield v V. Qed.
Lemma ff_priority v a c d r : v < 2 ^ 32 ->
  fexec (Run (mkA StPriorityStreamId1 a 0 c d)) (be32 v ++ r) = fexec (Run (mkA StPriorityWeight a v c d)) r.
Proof. intros V. ffield v V. Qed.
Lemma ff_push v a c d r : v < 2 ^ 32 ->
  fexec (Run (mkA StPushPromiseStreamId1 a 0 c d)) (be32 v ++ r) =
  fexec (Run (mkA StPushPromiseCallback a v c d)) r.
Proof. intros V. ffield v V. Qed.
Lemma ff_rst v a c d r : v < 2 ^ 32 ->
  fexec (Run (mkA StRstStreamErrorCode1 a 0 c d)) (be32 v ++ r) =
  bef [FEv (ERstStream v)] (fexec F0 r).
Proof.
  intros V. rewrite <- (fexec_post chk cut (Run (mkA StRstStreamCallback a v c d))) by reflexivity. ffield v V.
Qed.
Lemma ff_window v a c d r : v < 2 ^ 32 ->
  fexec (Run (mkA StWindowUpdateIncrement1 a 0 c d)) (be32 v ++ r) =
  bef [FEv (EWindowUpdate v)] (fexec F0 r).
Proof.
  intros V. rewrite <- (fexec_post chk cut (Run (mkA StWindowUpdateCallback a v c d))) by reflexivity. ffield v V.
Qed.
Lemma ff_setting_id v a d r : v < 2 ^ 16 ->
  fexec (Run (mkA StSettingsId1 a 0 0 d)) (be16 v ++ r) = fexec (Run (mkA StSettingsValue1 a 0 v d)) r.
Proof.
  intros V. unfold be16. cbn [app]. pose proof (cat2_be16 v V) as H. unfold cat2 in H. revert H.
  generalize (v / 2 ^ 8 mod 256). intros v3. generalize (v mod 256). intros v4 H.
  repeat feat1. rewrite !bef_bef. cbn [app]. rewrite bef_nil, H. reflexivity.
Qed.
Lemma ff_code v a b r : v < 2 ^ 32 ->
  exists c d, N.lor (shl32 c 16) d = v /\
  fexec (Run (mkA StGoAwayErrorCode1 a b 0 0)) (be32 v ++ r) = fexec (Run (mkA StGoAwayCallback a b c d)) r.
Proof.
  intros V. eexists _, _. split; [exact (halves v V)|].
  unfold be32. cbn [app]. unfold cat2.
  generalize (v / 2 ^ 24 mod 256). intros v1.
  generalize (v / 2 ^ 16 mod 256). intros v2.
  generalize (v / 2 ^ 8 mod 256). intros v3.
  generalize (v mod 256). intros v4.
  repeat feat1. rewrite !bef_bef. cbn [app]. now rewrite bef_nil.
Qed.

(* A piece ends in the four bytes before n more. *)
Definition broken (n : nat) : bool := cut (S (S (S n))) || cut (S (S n)) || cut (S n).

Lemma split_broken s i n : List.length s = (i + 4 + n)%nat -> split cut s i (i + 4) = broken n.
Proof.
  intros L. unfold split, broken. replace (i + 4 - i - 1)%nat with 3%nat by lia. cbn [seq existsb].
  replace (List.length s - S i)%nat with (S (S (S n))) by lia.
  replace (List.length s - S (S i))%nat with (S (S n)) by lia.
  replace (List.length s - S (S (S i)))%nat with (S n) by lia. now rewrite orb_false_r, orb_assoc.
Qed.

Lemma broken_not n : broken n = false -> cut (S (S (S n))) = false /\ cut (S (S n)) = false /\ cut (S n) = false.
Proof.
  unfold broken. intros H. apply orb_false_iff in H. destruct H as [H H3].
  apply orb_false_iff in H. tauto.
Qed.

Ltac feat2 := erewrite fexec_eat; [|fready|first [right; reflexivity | left; assumption]|reflexivity].

Lemma ff_go_away v a c d r : v < 2 ^ 32 -> broken (List.length r) = false ->
  fexec (Run (mkA StGoAwayStreamId1 a 0 c d)) (be32 v ++ r) = fexec (Run (mkA StGoAwayErrorCode1 a v c d)) r.
Proof.
  intros V B. apply broken_not in B. destruct B as (B1 & B2 & B3). unfold be32. cbn [app].
  pose proof (cat4_be32 v V) as H; unfold cat4 in H; revert H.
  generalize (v / 2 ^ 24 mod 256); intros v1.
  generalize (v / 2 ^ 16 mod 256); intros v2.
  generalize (v / 2 ^ 8 mod 256); intros v3.
  generalize (v mod 256); intros v4 H.
  do 4 feat2. rewrite !bef_bef; cbn [app]; rewrite bef_nil, H; reflexivity.
Qed.

Lemma ff_go_away_raw b0 b1 b2 b3 a c d r : broken (List.length r) = false ->
  exists v, fexec (Run (mkA StGoAwayStreamId1 a 0 c d)) (b0 :: b1 :: b2 :: b3 :: r) =
            fexec (Run (mkA StGoAwayErrorCode1 a v c d)) r.
Proof.
  intros B. apply broken_not in B. destruct B as (B1 & B2 & B3). eexists.
  do 4 feat2. rewrite !bef_bef; cbn [app]; rewrite bef_nil; reflexivity.
Qed.

Lemma ff_setting v a c d r : v < 2 ^ 32 -> broken (List.length r) = false ->
  fexec (Run (mkA StSettingsValue1 a 0 c d)) (be32 v ++ r) = bef [FEv (ESettings c v)] (fexec F0 r).
Proof.
  intros V B. apply broken_not in B. destruct B as (B1 & B2 & B3). unfold be32. cbn [app].
  rewrite <- (fexec_post chk cut (Run (mkA StSettingsCallback a v c d))) by reflexivity.
  pose proof (cat4_be32 v V) as H; unfold cat4 in H; revert H.
  generalize (v / 2 ^ 24 mod 256); intros v1.
  generalize (v / 2 ^ 16 mod 256); intros v2.
  generalize (v / 2 ^ 8 mod 256); intros v3.
  generalize (v mod 256); intros v4 H.
  do 4 feat2. rewrite !bef_bef; cbn [app]; rewrite bef_nil, H; reflexivity.
Qed.

(* the same, in pieces *)
Ltac lost :=
  match goal with |- context [Http2FullSem.fexec chk cut (Run ?x) ?l] =>
    let C := fresh "C" in destruct (cut (List.length l)) eqn:C;
    [rewrite (fexec_cut chk cut (Run x) l C eq_refl); cbn [fcut]; now rewrite stuck_exec|] end.

Lemma ff_go_away_lost b0 b1 b2 b3 a b c d r : broken (List.length r) = true ->
  fexec (Run (mkA StGoAwayStreamId1 a b c d)) (b0 :: b1 :: b2 :: b3 :: r) = ([], Some (Stuck StGoAwayStreamId3)).
Proof.
  unfold broken. intros B. feat2. lost. feat2. lost. feat2. lost. exfalso.
  cbn [List.length] in *. rewrite C, C0, C1 in B. discriminate B.
Qed.

Lemma ff_setting_lost b0 b1 b2 b3 a b c d r : broken (List.length r) = true ->
  fexec (Run (mkA StSettingsValue1 a b c d)) (b0 :: b1 :: b2 :: b3 :: r) = ([], Some (Stuck StSettingsValue3)).
Proof.
  unfold broken. intros B. feat2. lost. feat2. lost. feat2. lost. exfalso.
  cbn [List.length] in *. rewrite C, C0, C1 in B. discriminate B.
Qed.

Ltac low :=
  match goal with |- context [Http2FullSem.fexec chk cut (Run ?x) ?l] =>
    let C := fresh "C" in destruct (cut (List.length l)) eqn:C;
    [rewrite (fexec_cut chk cut (Run x) l C eq_refl); cbn [fcut];
     repeat feat2; rewrite !bef_bef; cbn [app]; rewrite bef_nil|] end.

Lemma ff_id b0 b1 b2 b3 a c d r : b2 < 256 ->
  fexec (Run (mkA StFrameStreamId1 a 0 c d)) (b0 :: b1 :: b2 :: b3 :: r) =
  fexec (Run (mkA StFrameFormatEnd a (if broken (List.length r) then cat2 b2 b3 else cat4 b0 b1 b2 b3) c d)) r.
Proof.
  intros H2. unfold broken, cat4. 
  assert (forall n, cat2 b2 n = N.lor (shl32 b2 8) n) as C2.
  { intros n. unfold cat2. rewrite N.lor_0_l, shl16_mul by exact H2. rewrite shl32_mul by (assumption || discriminate).
    reflexivity. }
  rewrite C2. clear C2.
  feat2. low.
  { cbn [List.length] in C. rewrite C. reflexivity. }
  feat2. low.
  { cbn [List.length] in C, C0. rewrite C, C0. reflexivity. }
  feat2. low.
  { cbn [List.length] in C, C0, C1. rewrite C, C0, C1. cbn [orb]. rewrite N.lor_0_l, low16 by exact H2. reflexivity. }
  feat2. rewrite !bef_bef; cbn [app]; rewrite bef_nil.
  cbn [List.length] in C, C0, C1. rewrite C, C0, C1. reflexivity.
Qed.


(* ------------------------------------------------------------------ *)
(* The contents of frames                                               *)
(* ------------------------------------------------------------------ *)

Ltac fixed_part := apply fg_fixed; [assumption|silents|].

(* what is known of a length, with one byte there *)
Lemma fexec_fail x v r : fready chk x -> plain x -> feat chk x v = None -> fexec x (v :: r) = ([], None).
Proof.
  intros (Q & P1 & P2) C E. cbn [Http2FullSem.fexec]. unfold fquiet in Q. rewrite Q.
  assert ((if cut (List.length (v :: r)) then fcut x else x) = x) as ->.
  { unfold plain in C. rewrite C. now destruct (cut (List.length (v :: r))). }
  now rewrite P1, P2, E, !bef_nil.
Qed.

Lemma fg_priority a c d s : bytes s ->
  fg (Run (mkA StPriorityStreamId1 a 0 c d)) s (fields [StPriorityStreamId1; StPriorityStreamId2; StPriorityStreamId3; StPriorityStreamId4;
              StPriorityWeight] s (fun x s =>
    Frame [FEv (EPriority (2 ^ 31 <=? field x 0 4) (field x 0 4 mod 2 ^ 31) (field x 4 1))] s)).
Proof.
  intros B. fixed_part. intros u r L Bu Br.
  destruct (four u r 1 Bu L) as (v & V & -> & E & L1 & B1).
  destruct (one _ B1 L1) as [E1 W]. unfold field. rewrite firstn_all2 by (rewrite L1; constructor).
  rewrite E1 in E. split; [|now exists u].
  rewrite E, ff_priority by exact V. cbn [app].
  rewrite <- high_num, <- low_num by exact V. apply fexec_eat; [fready|right; reflexivity|reflexivity].
Qed.

Lemma fg_rst a c d s : bytes s ->
  fg (Run (mkA StRstStreamErrorCode1 a 0 c d)) s (fields [StRstStreamErrorCode1; StRstStreamErrorCode2; StRstStreamErrorCode3;
              StRstStreamErrorCode4] s (fun x s => Frame [FEv (ERstStream (num x))] s)).
Proof.
  intros B. fixed_part. intros u r L Bu Br.
  destruct (be_num u Bu L) as [E V]. split; [|now exists u]. rewrite E at 1. now apply ff_rst.
Qed.

Lemma fg_window a c d s : bytes s ->
  fg (Run (mkA StWindowUpdateIncrement1 a 0 c d)) s (fields [StWindowUpdateIncrement1; StWindowUpdateIncrement2; StWindowUpdateIncrement3;
              StWindowUpdateIncrement4] s (fun x s => Frame [FEv (EWindowUpdate (num x))] s)).
Proof.
  intros B. fixed_part. intros u r L Bu Br.
  destruct (be_num u Bu L) as [E V]. split; [|now exists u]. rewrite E at 1. now apply ff_window.
Qed.

Lemma fg_settings lost a d s : bytes s ->
  ((6 <= List.length s)%nat -> lost = broken (List.length s - 6)) ->
  fg (Run (mkA StSettingsId1 a 0 0 d)) s
     (fields [StSettingsId1; StSettingsId2;
              StSettingsValue1; StSettingsValue2; StSettingsValue3; StSettingsValue3] s (fun x s =>
      if lost then Awaits StSettingsValue3 [] else Frame [FEv (ESettings (field x 0 2) (field x 2 4))] s)).
Proof.
  intros B X. apply fg_fixed'; [exact B|apply silent_setting|].
  intros u r -> L Bu Br. cbn [List.length] in L. rewrite app_length, L in X. specialize (X ltac:(lia)).
  replace (6 + List.length r - 6)%nat with (List.length r) in X by lia.
  destruct (bytes_cut 2 u Bu) as [B1 B2].
  destruct (be_num2 (firstn 2 u) B1) as [E1 V1]; [rewrite firstn_length; lia|].
  destruct (be_num (skipn 2 u) B2) as [E2 V2]; [rewrite skipn_length; lia|].
  assert (fexec (Run (mkA StSettingsId1 a 0 0 d)) (u ++ r) =
          fexec (Run (mkA StSettingsValue1 a 0 (field u 0 2) d)) (be32 (field u 2 4) ++ r)) as E.
  { rewrite <- (firstn_skipn 2 u) at 1. rewrite E1, E2, <- app_assoc.
    rewrite ff_setting_id by assumption. unfold field. cbn [skipn].
    change (match u with [] => [] | [_] => [] | _ :: _ :: l => l end) with (skipn 2 u).
    rewrite (firstn_all2 (skipn 2 u)) by (rewrite skipn_length; lia). reflexivity. }
  assert (field u 2 4 < 2 ^ 32) as V.
  { unfold field. rewrite (firstn_all2 (skipn 2 u)) by (rewrite skipn_length; lia). exact V2. }
  subst lost. destruct (broken (List.length r)) eqn:K.
  - eexists. split; [rewrite E; apply ff_setting_lost; exact K|]. split; [reflexivity|discriminate].
  - split; [|now exists u]. rewrite E. now apply ff_setting.
Qed.

Lemma fg_go_away lost len s : bytes s -> len < 2 ^ 24 ->
  ((4 <= List.length s)%nat -> lost = broken (List.length s - 4)) ->
  fg (Run (mkA StGoAwayStreamId1 (enc len 0) 0 0 0)) s
     (fields ([StGoAwayStreamId1; StGoAwayStreamId2; StGoAwayStreamId3; StGoAwayStreamId3] ++
              if lost
              then [StGoAwayStreamId3; StGoAwayStreamId3; StGoAwayStreamId3; StGoAwayStreamId3]
              else [StGoAwayErrorCode1; StGoAwayErrorCode2; StGoAwayErrorCode3; StGoAwayErrorCode4])
             s (fun x s =>
      if lost then Awaits StGoAwayStreamId3 []
      else less chk len 8 (fun len =>
           saying [FEv (EGoAway (field x 0 4 mod 2 ^ 31) (field x 4 4))]
                  (if len =? 0 then Frame [] s else full_data chk StGoAwayDebugData KDebug len 0 s)))).
Proof.
  intros B L X.
  destruct (Nat.ltb_spec (List.length s) 4) as [Sh|Lo].
  { destruct s as [|v0 [|v1 [|v2 [|v3 s]]]]; cbn [List.length] in Sh; try lia;
      apply silent_go_away; reflexivity. }
  specialize (X Lo).
  destruct (Nat.ltb_spec (List.length s) 8) as [Sh|Lo'].
  { destruct s as [|v0 [|v1 [|v2 [|v3 r]]]]; cbn [List.length] in Lo; try lia.
    cbn [List.length] in X. replace (S (S (S (S (List.length r)))) - 4)%nat with (List.length r) in X by lia.
    cbn [List.length] in Sh. subst lost. destruct (broken (List.length r)) eqn:K.
    - assert (fields ([StGoAwayStreamId1; StGoAwayStreamId2; StGoAwayStreamId3; StGoAwayStreamId3] ++
              [StGoAwayStreamId3; StGoAwayStreamId3; StGoAwayStreamId3; StGoAwayStreamId3])
             (v0 :: v1 :: v2 :: v3 :: r) (fun x s => Awaits StGoAwayStreamId3 []) = Awaits StGoAwayStreamId3 []) as ->.
      { destruct r as [|? [|? [|? [|? r]]]]; try reflexivity. cbn [List.length] in Sh. lia. }
      eexists. split; [apply ff_go_away_lost; exact K|]. split; [reflexivity|discriminate].
    - destruct (ff_go_away_raw v0 v1 v2 v3 (enc len 0) 0 0 r K) as (v & E).
      assert (exists a, nth_error [StGoAwayErrorCode1; StGoAwayErrorCode2; StGoAwayErrorCode3; StGoAwayErrorCode4]
                (List.length r) = Some a) as (a & Ea).
      { destruct (nth_error _ (List.length r)) eqn:En; [eauto|]. apply nth_error_None in En. cbn [List.length] in En. lia. }
      destruct (silent_code (enc len 0) v 0 0 r a Ea) as (y & Y1 & Y2).
      unfold fields. cbn [app List.length nth_error] in *. rewrite Ea.
      exists y. rewrite E. split; assumption. }
  apply (fg_fixed_long _ _ _ _ B); [destruct lost; exact Lo'|].
  intros u r -> Lu Bu Br.
  assert (List.length u = 8%nat) as Lu' by (rewrite Lu; now destruct lost). clear Lu. rename Lu' into Lu.
  rewrite app_length, Lu in X.
  replace (8 + List.length r - 4)%nat with (S (S (S (S (List.length r))))) in X by lia.
  destruct (four u r 4 Bu Lu) as (v & V & -> & E & L1 & B1).
  destruct (be_num _ B1 L1) as [E1 W]. unfold field.
  destruct (only4 _ L1) as [-> _].
  set (g := num (skipn 4 u)) in *. rewrite E1 in E.
  assert (List.length (be32 g ++ r) = S (S (S (S (List.length r))))) as L4.
  { unfold be32. reflexivity. }
  subst lost. rewrite <- L4. destruct (broken (List.length (be32 g ++ r))) eqn:K.
  { eexists. split; [rewrite E; apply ff_go_away_lost; exact K|]. split; [reflexivity|discriminate]. }
  destruct (ff_code g (enc len 0) v r W) as (c & d & C & Y).
  assert (fexec (Run (mkA StGoAwayStreamId1 (enc len 0) 0 0 0)) (u ++ r) =
          fexec (Run (mkA StGoAwayCallback (enc len 0) v c d)) r) as E2.
  { rewrite E, ff_go_away by assumption. exact Y. }
  apply (fg_less len 0 8); [exact L|reflexivity|reflexivity|discriminate| |].
  - intros n Ln D.
    apply (fg_say _ _ (if 0 <? n then Run (mkA StGoAwayDebugData (enc n 0) v c d) else F0) r u).
    + reflexivity.
    + rewrite E2. rewrite <- low_num by exact V. rewrite <- C. apply fexec_post. cbn [fpost]. rewrite D.
      now rewrite plen_enc by reflexivity.
    + destruct (N.eqb_spec n 0) as [->|NE].
      * cbn. split; [now rewrite bef_nil|now exists []].
      * destruct (N.ltb_spec 0 n); [|lia]. apply fg_data; [reflexivity|assumption|reflexivity].
  - intros D. rewrite E2. destruct r; cbn [Http2FullSem.fexec fpost]; rewrite D; reflexivity.
Qed.

Lemma fg_pad_length s1 s2 padded len s use : bytes s -> len < 2 ^ 24 ->
  (s1, s2) = (StDataPadLength, StDataData) \/
  (s1, s2) = (StHeadersPadLengthWithPriority, StHeadersStreamId1) \/
  (s1, s2) = (StHeadersPadLengthWithoutPriority, StHeadersCallback) \/
  (s1, s2) = (StPushPromisePadLength, StPushPromiseStreamId1) \/
  (s1, s2) = (StUnsupportedPadLength, StUnsupportedData) ->
  (padded = true -> forall len z s, bytes s -> len < 2 ^ 24 -> z < 256 ->
     fg (Run (mkA s2 (enc len z) 0 0 0)) s (use len z s)) ->
  (padded = false -> fg (Run (mkA s2 (enc len 0) 0 0 0)) s (use len 0 s)) ->
  fg (Run (mkA (if padded then s1 else s2) (enc len 0) 0 0 0)) s (full_pad chk padded s1 len s use).
Proof.
  intros B L P U U0. unfold full_pad. destruct padded; [|now apply U0].
  destruct s as [|z s].
  - exists (Run (mkA s1 (enc len 0) 0 0 0)).
    repeat destruct P as [P|P]; injection P as -> ->;
      (split; [apply fexec_nil; reflexivity|split; [reflexivity|discriminate]]).
  - apply Forall_cons_iff in B. destruct B as [Z B].
    apply (fg_less len z 1); [exact L|exact Z|reflexivity|discriminate| |].
    + intros n Ln D. apply (fg_skip _ _ (Run (mkA s2 (enc n z) 0 0 0)) s [z]).
      * reflexivity.
      * rewrite <- lor_enc in D by exact Z.
        rewrite <- (bef_nil (fexec (Run (mkA s2 (enc n z) 0 0 0)) s)).
        repeat destruct P as [P|P]; injection P as -> ->;
          (apply fexec_eat; [fready|right; reflexivity|cbn [feat]; now rewrite D]).
      * now apply U.
    + intros D. rewrite <- lor_enc in D by exact Z.
      repeat destruct P as [P|P]; injection P as -> ->;
        (apply fexec_fail; [fready|reflexivity|cbn [feat]; now rewrite D]).
Qed.

Lemma fg_prio len z s : bytes s -> len < 2 ^ 24 -> z < 256 ->
  fg (Run (mkA StHeadersStreamId1 (enc len z) 0 0 0)) s
     (fields [StHeadersStreamId1; StHeadersStreamId2; StHeadersStreamId3; StHeadersStreamId4;
              StHeadersWeight] s (fun x s =>
        less chk len 5 (fun len =>
        saying [FEv (EHeaders (2 ^ 31 <=? field x 0 4) (field x 0 4 mod 2 ^ 31) (field x 4 1))]
            (full_data chk StHeadersFragment KFragment len z s)))).
Proof.
  intros B L Z. fixed_part. intros u r Lu Bu Br.
  destruct (four u r 1 Bu Lu) as (v & V & -> & E & L1 & B1).
  destruct (one _ B1 L1) as [E1 W]. unfold field. rewrite firstn_all2 by (rewrite L1; constructor).
  set (w := num (skipn 4 u)) in *. rewrite E1 in E.
  apply (fg_less len z 5); [exact L|exact Z|reflexivity|discriminate| |].
  - intros n Ln D.
    apply (fg_say _ _ (Run (mkA StHeadersFragment (enc n z) v (shl16 w 8) 0)) r u).
    + reflexivity.
    + rewrite E, ff_headers by exact V. cbn [app].
      rewrite (fexec_eat chk cut _ w r [] (Run (mkA StHeadersCallback (enc n z) v (shl16 w 8) 0))).
      * rewrite bef_nil. erewrite fexec_post by (cbn [fpost post run]; exact eq_refl).
        rewrite high_num, low_num, weight_back by assumption. reflexivity.
      * fready.
      * right; reflexivity.
      * cbn [feat]. now rewrite D.
    + apply fg_data; [reflexivity|exact Ln|exact Z].
  - intros D. rewrite E, ff_headers by exact V. cbn [app].
    apply fexec_fail; [fready|reflexivity|cbn [feat]; now rewrite D].
Qed.

Lemma fg_push len z s : bytes s -> len < 2 ^ 24 -> z < 256 ->
  fg (Run (mkA StPushPromiseStreamId1 (enc len z) 0 0 0)) s
     (fields [StPushPromiseStreamId1; StPushPromiseStreamId2; StPushPromiseStreamId3;
              StPushPromiseStreamId4] s (fun x s =>
      match s with
      | [] => Awaits StPushPromiseCallback []
      | _ => less chk len 4 (fun len =>
             saying [FEv (EPushPromise (num x))] (full_data chk StHeadersFragment KFragment len z s))
      end)).
Proof.
  intros B L Z. fixed_part. intros u r Lu Bu Br.
  destruct (be_num u Bu Lu) as [E V]. set (v := num u) in *.
  assert (fexec (Run (mkA StPushPromiseStreamId1 (enc len z) 0 0 0)) (u ++ r) =
          fexec (Run (mkA StPushPromiseCallback (enc len z) v 0 0)) r) as E2.
  { rewrite E. now apply ff_push. }
  destruct r as [|x r].
  { eexists. rewrite E2. split; [apply fexec_nil; reflexivity|split; [reflexivity|discriminate]]. }
  apply (fg_less len z 4); [exact L|exact Z|reflexivity|discriminate| |].
  - intros n Ln D. apply (fg_say _ _ (Run (mkA StHeadersFragment (enc n z) v 0 0)) (x :: r) u).
    + reflexivity.
    + rewrite E2. apply fexec_pre1; try reflexivity. cbn [fpre1]. now rewrite D.
    + apply fg_data; [reflexivity|exact Ln|exact Z].
  - intros D. rewrite E2. cbn [Http2FullSem.fexec fpost run post].
    assert (forall (X : bool) (y : F), (if X then y else y) = y) as Same by now intros [].
    cbn [fcut a_st]. rewrite Same. cbn [fpre1]. rewrite D. reflexivity.
Qed.

Lemma fg_contents lost len t f s : bytes s -> len < 2 ^ 24 ->
  (t = 7 -> (4 <= List.length s)%nat -> lost = broken (List.length s - 4)) ->
  (t = 4 -> (6 <= List.length s)%nat -> lost = broken (List.length s - 6)) ->
  fg (Run (mkA (start t f) (enc len 0) 0 0 0)) s (full_contents chk lost len t f s).
Proof.
  intros B L L7 L4.
  assert (forall k st, kind_of st = Some k -> forall len z s, bytes s -> len < 2 ^ 24 -> z < 256 ->
     fg (Run (mkA st (enc len z) 0 0 0)) s (full_data chk st k len z s)) as D.
  { intros k st K n z s' _ L' Z'. now apply fg_data. }
  assert (fg (Run (mkA (if flag_padded f then StUnsupportedPadLength else StUnsupportedData) (enc len 0) 0 0 0)) s
             (full_pad chk (flag_padded f) StUnsupportedPadLength len s (full_data chk StUnsupportedData KUnsupported))) as U.
  { apply fg_pad_length; try assumption; [tauto|intros _; now apply D|intros _; now apply D]. }
  assert (10 <= t \/ t = 0 \/ t = 1 \/ t = 2 \/ t = 3 \/ t = 4 \/ t = 5 \/ t = 6 \/ t = 7 \/ t = 8 \/ t = 9) as C by lia.
  destruct C as [C|C].
  { destruct t as [|q]; [lia|]. repeat (destruct q as [q|q|]; try exact U; try lia). }
  repeat destruct C as [C|C]; subst t; cbn [start full_contents].
  - apply fg_pad_length; try assumption; [tauto|intros _; now apply D|intros _; now apply D].
  - destruct (flag_priority f) eqn:P.
    + apply fg_pad_length; try assumption; [tauto|intros _; apply fg_prio|intros _; now apply fg_prio].
    + destruct (flag_padded f) eqn:Q.
      * refine (fg_pad_length StHeadersPadLengthWithoutPriority StHeadersCallback true _ _ _ B L _ _ _);
          [tauto| |discriminate].
        intros _ n z s' B' L' Z'.
        apply (fg_say _ _ (Run (mkA StHeadersFragment (enc n z) 0 0 0)) s' []).
        -- reflexivity.
        -- now erewrite fexec_post by (cbn [fpost post run]; exact eq_refl).
        -- now apply D.
      * cbn [full_pad]. now apply D.
  - now apply fg_priority.
  - now apply fg_rst.
  - apply fg_settings; auto.
  - apply fg_pad_length; try assumption; [tauto|intros _; apply fg_push|intros _; now apply fg_push].
  - now apply D.
  - apply fg_go_away; auto.
  - now apply fg_window.
  - now apply D.
Qed.

(* ------------------------------------------------------------------ *)
(* Frames                                                               *)
(* ------------------------------------------------------------------ *)

Lemma fexec_header u r : bytes u -> List.length u = 9%nat ->
  field u 0 3 < 2 ^ 24 /\
  fexec F0 (u ++ r) =
  bef [FEv (EFrameFormat (field u 0 3) (field u 3 1) (field u 4 1)
              (if broken (List.length r) then field u 7 2 else field u 5 4 mod 2 ^ 31))]
      (fexec (Run (mkA (start (field u 3 1) (field u 4 1)) (enc (field u 0 3) 0) 0 0 0)) r).
Proof.
  intros B L.
  destruct u as [|b0 [|b1 [|b2 [|b3 [|b4 [|b5 [|b6 [|b7 [|b8 [|? ?]]]]]]]]]]; try discriminate L.
  unfold field. cbn [firstn skipn].
  do 9 (apply Forall_cons_iff in B; let H := fresh "H" in destruct B as [H B]).
  destruct (be_num3 [b0; b1; b2]) as [E1 V1]; [repeat constructor; assumption|reflexivity|].
  destruct (be_num [b5; b6; b7; b8]) as [E2 V2]; [repeat constructor; assumption|reflexivity|].
  destruct (be_num2 [b7; b8]) as [E3 V3]; [repeat constructor; assumption|reflexivity|].
  split; [exact V1|].
  assert (num [b3] = b3) as N3 by apply N.add_0_l. assert (num [b4] = b4) as N4 by apply N.add_0_l.
  rewrite N3, N4. clear N3 N4.
  assert (cat4 b0 b1 b2 b3 = enc (num [b0; b1; b2]) b3) as C1.
  { transitivity (match be24 (num [b0; b1; b2]) with [x; y; z] => cat4 x y z b3 | _ => 0 end).
    - now rewrite <- E1.
    - unfold be24. apply (cat4_header _ _ V1 H2). }
  assert (cat4 b5 b6 b7 b8 = num [b5; b6; b7; b8]) as C2.
  { transitivity (match be32 (num [b5; b6; b7; b8]) with [w; x; y; z] => cat4 w x y z | _ => 0 end).
    - now rewrite <- E2.
    - unfold be32. apply (cat4_be32 _ V2). }
  assert (cat2 b7 b8 = num [b7; b8]) as C3.
  { transitivity (match be16 (num [b7; b8]) with [x; y] => cat2 x y | _ => 0 end).
    - now rewrite <- E3.
    - unfold be16. apply (cat2_be16 _ V3). }
  clear E1 E2 E3. revert C1 C2 C3 V1 V2 V3.
  generalize (num [b0; b1; b2]). intros len. generalize (num [b5; b6; b7; b8]). intros sid.
  generalize (num [b7; b8]). intros low C1 C2 C3 V1 V2 V3.
  cbn [app]. do 5 (erewrite fexec_eat; [|fready|right; reflexivity|reflexivity]).
  rewrite !bef_bef. cbn [app]. rewrite bef_nil. rewrite ff_id by assumption.
  unfold cat4 in C1. rewrite N.lor_0_l in C1. rewrite C1, C2, C3.
  rewrite <- (target_start len) by assumption.
  erewrite fexec_post by (cbn [fpost post run]; exact eq_refl).
  rewrite plen_enc, pads_enc, land_high by assumption.
  rewrite !u8_small by assumption.
  destruct (broken _).
  - rewrite low_num by (assert (2 ^ 16 < 2 ^ 32) by reflexivity; lia).
    rewrite (N.mod_small low) by (assert (2 ^ 16 < 2 ^ 31) by reflexivity; lia). reflexivity.
  - rewrite low_num by assumption. reflexivity.
Qed.

Lemma fg_frame s : bytes s -> s <> [] -> fg F0 s (full_frame chk cut s).
Proof.
  intros B NE. unfold full_frame, fields. cbn [List.length]. set (k := 9%nat).
  destruct (nth_error _ (List.length s)) as [a|] eqn:L.
  - destruct s as [|b0 s]; [congruence|]. clear NE. cbn [List.length nth_error] in L.
    assert (exists y, fexec F0 (b0 :: s) = fexec y s /\
      silent [StFrameLength2; StFrameLength3; StFrameType; StFrameFlags;
              StFrameStreamId1; StFrameStreamId2; StFrameStreamId3; StFrameStreamId4] y) as (y & E & S).
    { eexists. split.
      - erewrite fexec_eat; [|fready|right; reflexivity|reflexivity]. apply bef_nil.
      - do 4 silent1. apply silent_id. }
    destruct (S s a L) as (y' & E' & A').
    exists y'. rewrite E. now split.
  - apply nth_error_None in L. cbn [List.length] in L. subst k.
    destruct (bytes_cut 9 s B) as [B1 B2].
    assert (List.length (firstn 9 s) = 9%nat) as Lu by (rewrite firstn_length; lia).
    assert (List.length (skipn 9 s) = (List.length s - 9)%nat) as Lr by apply skipn_length.
    destruct (fexec_header (firstn 9 s) (skipn 9 s) B1 Lu) as [V E].
    rewrite firstn_skipn in E.
    apply (fg_say _ _ (Run (mkA (start (field (firstn 9 s) 3 1) (field (firstn 9 s) 4 1)) (enc (field (firstn 9 s) 0 3) 0) 0 0 0))
             (skipn 9 s) (firstn 9 s)).
    + now rewrite firstn_skipn.
    + rewrite E. replace (split cut s 5 9) with (broken (List.length (skipn 9 s))); [reflexivity|].
      symmetry. apply (split_broken s 5). lia.
    + apply fg_contents; try assumption.
      * intros -> Q. cbn [N.eqb Pos.eqb]. apply (split_broken s 9). lia.
      * intros -> Q. cbn [N.eqb Pos.eqb]. apply (split_broken s 11). lia.
Qed.

Lemma fexec_whole s e r : bytes s -> full_frame chk cut s = Frame e r ->
  fexec F0 s = bef e (fexec F0 r) /\ bytes r /\ (List.length r < List.length s)%nat.
Proof.
  intros B E. assert (s <> []) as NE by (intros ->; discriminate E).
  pose proof (fg_frame s B NE) as G. rewrite E in G. destruct G as [G (u & Eu)].
  split; [exact G|]. subst s. split; [now apply Forall_app in B|].
  rewrite app_length. destruct u as [|b u]; [exfalso|cbn [List.length]; lia].
  cbn [app] in *. unfold full_frame, fields in E.
  destruct (nth_error _ (List.length r)) as [a|]; [discriminate E|].
  assert (e <> []) as Ne.
  { intros ->. destruct (full_contents _ _ _ _ _ _); cbn [saying] in E; discriminate E. }
  assert (fst (fexec F0 r) = e ++ fst (fexec F0 r)) as X by (rewrite G at 1; reflexivity).
  assert (List.length (fst (fexec F0 r)) = (List.length e + List.length (fst (fexec F0 r)))%nat) as Y.
  { rewrite X at 1. apply app_length. }
  destruct e; [congruence|cbn [List.length] in Y; lia].
Qed.

Lemma full_frames_ok n : forall s, bytes s -> (List.length s < n)%nat ->
  match full_frames chk cut n s with
  | (e, Some (a, r)) => exists y, fexec F0 s = (e, Some y) /\ f_st y = a /\ (awake y <-> r <> []) /\ exists u, s = u ++ r
  | (e, None) => fexec F0 s = (e, None)
  end.
Proof.
  induction n as [|n IH]; intros s B L; [lia|]. cbn [full_frames].
  destruct (full_frame chk cut s) as [e r|a e|e] eqn:E.
  - destruct (fexec_whole s e r B E) as (G & B' & L').
    specialize (IH r B' ltac:(lia)). destruct (full_frames chk cut n r) as [e' [[a t]|]]; cbn [fst snd].
    + destruct IH as (y & Y1 & Y2 & Y3 & u & Eu). exists y. rewrite G, Y1. split; [reflexivity|].
      split; [exact Y2|]. split; [exact Y3|].
      pose proof (fg_frame s B) as Gs. rewrite E in Gs.
      destruct Gs as [_ (v & ->)]; [intros ->; discriminate E|]. subst r.
      exists (v ++ u). now rewrite app_assoc.
    + now rewrite G, IH.
  - destruct s as [|b s].
    + injection E as <- <-. exists F0. split; [apply fexec_nil; reflexivity|]. split; [reflexivity|]. split; [|now exists []].
      split; [intros A; exfalso; now apply A|congruence].
    + pose proof (fg_frame (b :: s) B ltac:(discriminate)) as G. rewrite E in G.
      destruct G as (y & Y1 & Y2 & Y3). exists y. split; [exact Y1|]. split; [exact Y2|].
      split; [split; [discriminate|intros _; exact Y3]|]. now exists [].
  - destruct s as [|b s]; [discriminate E|].
    pose proof (fg_frame (b :: s) B ltac:(discriminate)) as G. now rewrite E in G.
Qed.

End Facts.
