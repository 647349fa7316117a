(* The automaton on arbitrary bytes reports what Http2Any.v says. *)

From Coq Require Import NArith List Bool Arith String Lia.
From Verif Require Import Bytes ByteStream Http2Model Http2Spec Http2Wp Http2Term Http2Sem Http2Sim
  Http2Frame Http2Any Http2Raw.
Import ListNotations.
Local Open Scope N_scope.

(* x reads s as q says; w tells after how many bytes a fragile field is cut. *)
Definition ag (x : A) (s : list byte) (q : part) (w : nat -> bool) : Prop :=
  match q with
  | Whole e r => aexec x s = before e (aexec A0 r) /\ exists u, s = u ++ r
  | Part e => exists y, aexec x s = (e, Some y) /\ bad (a_st y) = w (List.length s) /\
                        a_st y <> StFrameLength1
  | Short e => aexec x s = (e, None)
  end.

Definition safe : nat -> bool := fun _ => false.

Lemma before_pair e e' o : before e (e', o) = (e ++ e', o).
Proof. reflexivity. Qed.

(* after the bytes u *)
Lemma ag_say x s x' s' u e q w w' :
  s = u ++ s' -> aexec x s = before e (aexec x' s') -> ag x' s' q w' ->
  w (List.length s) = w' (List.length s') -> ag x s (say e q) w.
Proof.
  intros -> E G W. destruct q as [e' r|e'|e']; cbn [say ag] in *.
  - destruct G as [G (v & ->)]. rewrite E, G, before_before. split; [reflexivity|].
    exists (u ++ v). now rewrite app_assoc.
  - destruct G as (y & G & B & N). exists y. rewrite E, G, before_pair, W. auto.
  - now rewrite E, G, before_pair.
Qed.

Lemma ag_skip x s x' s' u q w w' :
  s = u ++ s' -> aexec x s = aexec x' s' -> ag x' s' q w' ->
  w (List.length s) = w' (List.length s') -> ag x s q w.
Proof.
  intros E1 E2 G W. replace q with (say [] q) by now destruct q.
  eapply ag_say; try eassumption. now rewrite before_nil.
Qed.

Lemma ag_pad z b c d s : z < 256 -> ag (done z b c d) s (padding z s) safe \/ s = [] /\ z = 0.
Proof.
  intros Z. unfold padding, done. destruct (N.ltb_spec 0 z) as [P|P].
  - left. destruct (N.ltb_spec (N.of_nat (List.length s)) z) as [L|L].
    + exists (mkA StFramePadding (enc (z - N.of_nat (List.length s)) z) b c d).
      split; [|split; [reflexivity|discriminate]].
      rewrite <- (app_nil_r s) at 1. rewrite aexec_pad by lia. rewrite aexec_nil by reflexivity. reflexivity.
    + split; [|exists (firstn (N.to_nat z) s); now rewrite firstn_skipn].
      rewrite before_nil. rewrite <- (firstn_skipn (N.to_nat z) s) at 1.
      apply aexec_pad_end; try lia.
      * rewrite firstn_length. lia.
      * rewrite firstn_skipn. destruct s; [cbn in L; lia|discriminate].
  - assert (z = 0) as -> by lia. destruct s as [|v s]; [now right|left].
    cbn [List.length N.to_nat skipn ag]. destruct (N.ltb_spec (N.of_nat (S (List.length s))) 0); [lia|].
    split; [now rewrite before_nil|now exists []].
Qed.

Lemma ag_pad' z b c d s : z < 256 -> ag (done z b c d) s (padding z s) safe.
Proof.
  intros Z. destruct (ag_pad z b c d s Z) as [G|[-> ->]]; [exact G|].
  cbn. split; [reflexivity|now exists []].
Qed.

Lemma kind_not s k : kind_of s = Some k -> s <> StFrameLength1.
Proof. intros K ->. discriminate K. Qed.

Lemma ag_data st k len z b c d s : kind_of st = Some k -> len < 2 ^ 24 -> z < 256 ->
  ag (mkA st (enc len z) b c d) s (data k len z s) safe.
Proof.
  intros K L Z. unfold data. destruct s as [|v s'] eqn:Es.
  { exists (mkA st (enc len z) b c d). rewrite aexec_nil by exact (kind_quiet _ _ _ _ _ _ K).
    split; [reflexivity|]. split; [exact (kind_good _ _ K)|exact (kind_not _ _ K)]. }
  rewrite <- Es. assert (s <> []) as NE by (rewrite Es; discriminate).
  destruct (N.ltb_spec len z) as [P|P].
  { subst s. cbn [ag aexec]. pose proof (kind_quiet _ _ (enc len z) b c d K) as Q. unfold quiet in Q.
    rewrite Q, (kind_pre1 _ _ _ _ _ _ K), (kind_pre2 _ _ _ _ _ _ K).
    rewrite plen_enc, pads_enc by assumption. unfold sub32.
    destruct (N.leb_spec z len); [lia|reflexivity]. }
  destruct (N.ltb_spec (N.of_nat (List.length s)) (len - z)) as [M|M].
  - exists (mkA st (enc (len - N.of_nat (List.length s)) z) b c d).
    split; [|split; [exact (kind_good _ _ K)|exact (kind_not _ _ K)]].
    rewrite <- (app_nil_r s) at 1. rewrite (aexec_data st k) by (assumption || lia).
    rewrite aexec_nil by exact (kind_quiet _ _ _ _ _ _ K). unfold before. cbn [fst snd].
    now rewrite app_nil_r.
  - cbv zeta. set (n := N.to_nat (len - z)).
    assert (List.length (firstn n s) = n) as Ln by (rewrite firstn_length; unfold n; lia).
    apply (ag_say _ _ (done z b c d) (skipn n s) (firstn n s) _ _ _ safe).
    + now rewrite firstn_skipn.
    + rewrite <- (firstn_skipn n s) at 1. unfold item. apply aexec_data_end; try assumption.
      * rewrite Ln. unfold n. lia.
      * now rewrite firstn_skipn.
    + now apply ag_pad'.
    + reflexivity.
Qed.

Lemma num4 b0 b1 b2 b3 : num [b0; b1; b2; b3] = ((b0 * 256 + b1) * 256 + b2) * 256 + b3.
Proof. reflexivity. Qed.

(* four bytes are a number *)
Lemma be_num s : bytes s -> List.length s = 4%nat -> s = be32 (num s) /\ num s < 2 ^ 32.
Proof.
  intros B L. destruct (take4 s B L) as (v & V & E).
  assert (num s = v) as ->; [|now split].
  rewrite E. unfold be32. rewrite num4. symmetry. now apply split4.
Qed.

Lemma be_num2 s : bytes s -> List.length s = 2%nat -> s = be16 (num s) /\ num s < 2 ^ 16.
Proof.
  intros B L. destruct s as [|b0 [|b1 [|? ?]]]; try discriminate L.
  apply Forall_cons_iff in B. destruct B as [B0 B]. apply Forall_cons_iff in B. destruct B as [B1 _].
  unfold num, be16. cbn [fold_left]. change (2 ^ 8) with 256. rewrite N.add_0_l.
  rewrite N.div_add_l, (N.div_small b1), N.add_0_r by (assumption || discriminate).
  rewrite (N.mod_small b0) by assumption.
  rewrite N.add_comm, N.mod_add by discriminate. rewrite (N.mod_small b1) by assumption.
  split; [reflexivity|]. change (2 ^ 16) with 65536. lia.
Qed.

Lemma be_num3 s : bytes s -> List.length s = 3%nat -> s = be24 (num s) /\ num s < 2 ^ 24.
Proof.
  intros B L. destruct s as [|b0 [|b1 [|b2 [|? ?]]]]; try discriminate L.
  assert (bytes [0; b0; b1; b2]) as B' by (constructor; [reflexivity|exact B]).
  destruct (be_num _ B' eq_refl) as [E _].
  change (num [0; b0; b1; b2]) with (num [b0; b1; b2]) in E.
  split; [change (be24 (num [b0; b1; b2])) with (tl (be32 (num [b0; b1; b2]))); now rewrite <- E|].
  apply Forall_cons_iff in B. destruct B as [B0 B]. apply Forall_cons_iff in B. destruct B as [B1 B].
  apply Forall_cons_iff in B. destruct B as [B2 _].
  unfold num. cbn [fold_left]. change (2 ^ 24) with 16777216. lia.
Qed.

Lemma bytes_cut n s : bytes s -> bytes (firstn n s) /\ bytes (skipn n s).
Proof. intros B. rewrite <- (firstn_skipn n s) in B. now apply Forall_app in B. Qed.

Lemma bit31_num v : v < 2 ^ 32 -> v = bit31 (2 ^ 31 <=? v) (v mod 2 ^ 31) /\ v mod 2 ^ 31 < 2 ^ 31.
Proof.
  intros V. split; [|now apply N.mod_lt]. unfold bit31. destruct (N.leb_spec (2 ^ 31) v) as [L|L].
  - assert (v mod 2 ^ 31 = v - 2 ^ 31) as ->.
    { replace v with (v - 2 ^ 31 + 1 * 2 ^ 31) at 1 by lia. rewrite N.mod_add by discriminate.
      apply N.mod_small. change (2 ^ 32) with (2 ^ 31 + 2 ^ 31) in V. lia. }
    lia.
  - rewrite N.mod_small by assumption. reflexivity.
Qed.

Lemma ag_fixed x k s use w : bytes s ->
  (forall s, (List.length s < k)%nat -> ag x s (Part []) w) ->
  (forall u r, List.length u = k -> bytes u -> bytes r -> ag x (u ++ r) (use u r) w) ->
  ag x s (fixed k s use) w.
Proof.
  intros B H1 H2. unfold fixed. destruct (Nat.ltb_spec (List.length s) k) as [L|L]; [now apply H1|].
  rewrite <- (firstn_skipn k s) at 1. destruct (bytes_cut k s B). apply H2; try assumption.
  rewrite firstn_length. lia.
Qed.

(* a cut field *)
Ltac cut_field :=
  let s := fresh "s" in let L := fresh "L" in
  intros s L;
  repeat (destruct s as [|? s]; [cbn [List.length] in L; clear L|try (cbn [List.length] in L; exfalso; lia)]);
  (eexists; split; [repeat eat1; rewrite ?before_before, aexec_nil by reflexivity; reflexivity|];
   split; [reflexivity|discriminate]).

(* four bytes, split off *)
Lemma four u r k : bytes u -> List.length u = (4 + k)%nat ->
  exists v, v < 2 ^ 32 /\ field u 0 4 = v /\ u ++ r = be32 v ++ skipn 4 u ++ r /\
    List.length (skipn 4 u) = k /\ bytes (skipn 4 u).
Proof.
  intros B L. destruct (bytes_cut 4 u B) as [B1 B2].
  destruct (be_num (firstn 4 u) B1) as [E V]; [rewrite firstn_length; lia|].
  exists (num (firstn 4 u)). split; [exact V|]. split; [reflexivity|].
  rewrite <- E, app_assoc, firstn_skipn. split; [reflexivity|].
  split; [rewrite skipn_length; lia|exact B2].
Qed.

Lemma only4 (u : list byte) : List.length u = 4%nat -> firstn 4 u = u /\ skipn 4 u = [].
Proof.
  intros L. split; [apply firstn_all2; rewrite L; constructor|].
  apply skipn_all2. rewrite L. constructor.
Qed.

Lemma one (u : list byte) : bytes u -> List.length u = 1%nat -> u = [num u] /\ num u < 256.
Proof.
  intros B L. destruct u as [|b [|? ?]]; try discriminate L. apply Forall_cons_iff in B.
  destruct B as [B _]. split; [reflexivity|exact B].
Qed.

Lemma high_num v : v < 2 ^ 32 -> (N.shiftr v 31 =? 1) = (2 ^ 31 <=? v).
Proof.
  intros V. destruct (bit31_num v V) as [E L]. rewrite E at 1. now apply bit31_high.
Qed.

Lemma low_num v : v < 2 ^ 32 -> N.land v 2147483647 = v mod 2 ^ 31.
Proof. intros V. change 2147483647 with (N.ones 31). apply N.land_ones. Qed.

(* PRIORITY *)
Lemma ag_priority a c d s : bytes s ->
  ag (mkA StPriorityStreamId1 a 0 c d) s (fixed 5 s (fun x s =>
    Whole [FEv (EPriority (2 ^ 31 <=? field x 0 4) (field x 0 4 mod 2 ^ 31) (field x 4 1))] s)) safe.
Proof.
  intros B. apply ag_fixed; [exact B|cut_field|]. intros u r L Bu Br.
  destruct (four u r 1 Bu L) as (v & V & -> & E & L1 & B1).
  destruct (one _ B1 L1) as [E1 W]. unfold field. rewrite firstn_all2 by (rewrite L1; constructor).
  rewrite E1 in E. split; [|now exists u].
  rewrite E, f_priority by exact V. cbn [app].
  rewrite <- high_num, <- low_num by exact V. apply aexec_eat; [ready|reflexivity].
Qed.

(* RST_STREAM, WINDOW_UPDATE *)
Lemma ag_rst a c d s : bytes s ->
  ag (mkA StRstStreamErrorCode1 a 0 c d) s
     (fixed 4 s (fun x s => Whole [FEv (ERstStream (num x))] s)) safe.
Proof.
  intros B. apply ag_fixed; [exact B|cut_field|]. intros u r L Bu Br.
  destruct (be_num u Bu L) as [E V]. split; [|now exists u]. rewrite E at 1. now apply f_rst.
Qed.

Lemma ag_window a c d s : bytes s ->
  ag (mkA StWindowUpdateIncrement1 a 0 c d) s
     (fixed 4 s (fun x s => Whole [FEv (EWindowUpdate (num x))] s)) safe.
Proof.
  intros B. apply ag_fixed; [exact B|cut_field|]. intros u r L Bu Br.
  destruct (be_num u Bu L) as [E V]. split; [|now exists u]. rewrite E at 1. now apply f_window.
Qed.

(* SETTINGS *)
Definition in_setting (k : nat) : bool := (2 <? k)%nat && (k <? 6)%nat.

Lemma ag_settings a d s : bytes s ->
  ag (mkA StSettingsId1 a 0 0 d) s
     (fixed 6 s (fun x s => Whole [FEv (ESettings (field x 0 2) (field x 2 4))] s)) in_setting.
Proof.
  intros B. apply ag_fixed; [exact B|cut_field|]. intros u r L Bu Br.
  split; [|now exists u]. destruct (bytes_cut 2 u Bu) as [B1 B2].
  destruct (be_num2 (firstn 2 u) B1) as [E1 V1]; [rewrite firstn_length; lia|].
  destruct (be_num (skipn 2 u) B2) as [E2 V2]; [rewrite skipn_length; lia|].
  rewrite <- (firstn_skipn 2 u) at 1. rewrite E1, E2, <- app_assoc.
  rewrite f_setting_id, f_settings by assumption. unfold field. cbn [skipn].
  change (match u with [] => [] | [_] => [] | _ :: _ :: l => l end) with (skipn 2 u).
  rewrite (firstn_all2 (skipn 2 u)) by (rewrite skipn_length; lia). reflexivity.
Qed.

(* GOAWAY *)
Definition in_go_away (k : nat) : bool := (0 <? k)%nat && (k <? 4)%nat.

Lemma ag_weaken x s q w w' : ag x s q w -> w (List.length s) = w' (List.length s) -> ag x s q w'.
Proof. intros G E. destruct q; cbn [ag] in *; auto. now rewrite <- E. Qed.

Lemma ag_go_away len s : bytes s -> len < 2 ^ 24 ->
  ag (mkA StGoAwayStreamId1 (enc len 0) 0 0 0) s
     (fixed 8 s (fun x s =>
      if len <? 8 then Short []
      else say [FEv (EGoAway (field x 0 4 mod 2 ^ 31) (field x 4 4))]
               (if len =? 8 then Whole [] s else data KDebug (len - 8) 0 s))) in_go_away.
Proof.
  intros B L. apply ag_fixed; [exact B|cut_field|]. intros u r Lu Bu Br.
  destruct (four u r 4 Bu Lu) as (v & V & -> & E & L1 & B1).
  destruct (be_num _ B1 L1) as [E1 W]. unfold field.
  change (firstn 4 (skipn 4 u)) with (firstn 4 (skipn 4 u)). destruct (only4 _ L1) as [-> _].
  set (g := num (skipn 4 u)) in *. rewrite E1 in E.
  destruct (f_code g (enc len 0) v r W) as (c & d & C & X).
  assert (aexec (mkA StGoAwayStreamId1 (enc len 0) 0 0 0) (u ++ r) =
          aexec (mkA StGoAwayCallback (enc len 0) v c d) r) as E2.
  { rewrite E, f_go_away by exact V. exact X. }
  destruct (N.ltb_spec len 8) as [S|S].
  - cbn [ag]. rewrite E2. 
    assert (adec (enc len 0) 8 = None) as N.
    { unfold adec. rewrite plen_enc by reflexivity. unfold sub32. destruct (N.leb_spec 8 len); [lia|reflexivity]. }
    destruct r; cbn [aexec post]; rewrite N; reflexivity.
  - pose proof (adec_enc len 0 8 L eq_refl S) as D.
    apply (ag_say _ _ (if 0 <? len - 8 then mkA StGoAwayDebugData (enc (len - 8) 0) v c d else A0) r u _ _ _ safe).
    + reflexivity.
    + rewrite E2. rewrite <- low_num by exact V. rewrite <- C. apply aexec_post. cbn [post]. rewrite D.
      now rewrite plen_enc by reflexivity.
    + destruct (N.eqb_spec len 8) as [->|NE].
      * cbn. split; [now rewrite before_nil|now exists []].
      * destruct (N.ltb_spec 0 (len - 8)); [|lia]. apply ag_data; [reflexivity|lia|reflexivity].
    + unfold in_go_away. rewrite app_length, Lu. now rewrite andb_comm.
Qed.

(* The pad length. *)
Lemma ag_pad_length s1 s2 padded len s use : bytes s -> len < 2 ^ 24 ->
  (s1, s2) = (StDataPadLength, StDataData) \/
  (s1, s2) = (StHeadersPadLengthWithPriority, StHeadersStreamId1) \/
  (s1, s2) = (StHeadersPadLengthWithoutPriority, StHeadersCallback) \/
  (s1, s2) = (StPushPromisePadLength, StPushPromiseStreamId1) \/
  (s1, s2) = (StUnsupportedPadLength, StUnsupportedData) ->
  (padded = true -> forall len z s, bytes s -> len < 2 ^ 24 -> z < 256 ->
     ag (mkA s2 (enc len z) 0 0 0) s (use len z s) safe) ->
  (padded = false -> ag (mkA s2 (enc len 0) 0 0 0) s (use len 0 s) safe) ->
  ag (mkA (if padded then s1 else s2) (enc len 0) 0 0 0) s (pad_length padded len s use) safe.
Proof.
  intros B L P U U0. unfold pad_length. destruct padded; [|now apply U0].
  destruct s as [|z s].
  - exists (mkA s1 (enc len 0) 0 0 0).
    repeat destruct P as [P|P]; injection P as -> ->;
      (split; [reflexivity|]; split; [reflexivity|discriminate]).
  - apply Forall_cons_iff in B. destruct B as [Z B].
    destruct (N.eqb_spec len 0) as [->|NE].
    + assert (adec (N.lor (enc 0 0) z) 1 = None) as D.
      { rewrite lor_enc by exact Z. unfold adec. now rewrite plen_enc by exact Z. }
      repeat destruct P as [P|P]; injection P as -> ->;
        cbn [ag aexec post pre1 pre2 a_st kind_of eat]; now rewrite D.
    + apply (ag_skip _ _ (mkA s2 (enc (len - 1) z) 0 0 0) s [z] _ _ safe).
      * reflexivity.
      * apply f_pad; try assumption. lia.
      * apply U; try assumption; [reflexivity|lia].
      * reflexivity.
Qed.

(* HEADERS *)
Lemma ag_prio len z s : bytes s -> len < 2 ^ 24 -> z < 256 ->
  ag (mkA StHeadersStreamId1 (enc len z) 0 0 0) s
     (fixed 5 s (fun x s =>
        if len <? 5 then Short []
        else say [FEv (EHeaders (2 ^ 31 <=? field x 0 4) (field x 0 4 mod 2 ^ 31) (field x 4 1))]
                 (data KFragment (len - 5) z s))) safe.
Proof.
  intros B L Z. apply ag_fixed; [exact B|cut_field|]. intros u r Lu Bu Br.
  destruct (four u r 1 Bu Lu) as (v & V & -> & E & L1 & B1).
  destruct (one _ B1 L1) as [E1 W]. unfold field. rewrite firstn_all2 by (rewrite L1; constructor).
  set (w := num (skipn 4 u)) in *. rewrite E1 in E.
  destruct (N.ltb_spec len 5) as [S|S].
  - cbn [ag]. rewrite E, f_headers by exact V. cbn [app aexec post pre1 pre2 a_st kind_of eat].
    assert (adec (enc len z) 5 = None) as ->; [|reflexivity].
    unfold adec. rewrite plen_enc by exact Z. unfold sub32. destruct (N.leb_spec 5 len); [lia|reflexivity].
  - apply (ag_say _ _ (mkA StHeadersFragment (enc (len - 5) z) v (shl16 w 8) 0) r u _ _ _ safe).
    + reflexivity.
    + rewrite E, f_headers by exact V. cbn [app].
      rewrite (aexec_eat _ w r [] (mkA StHeadersCallback (enc (len - 5) z) v (shl16 w 8) 0)).
      * rewrite before_nil. erewrite aexec_post by (cbn [post]; exact eq_refl).
        rewrite high_num, low_num, weight_back by assumption. reflexivity.
      * ready.
      * cbn [eat]. now rewrite (adec_enc len z 5 L Z S).
    + apply ag_data; [reflexivity|lia|exact Z].
    + reflexivity.
Qed.

(* PUSH_PROMISE *)
Lemma ag_push len z s : bytes s -> len < 2 ^ 24 -> z < 256 ->
  ag (mkA StPushPromiseStreamId1 (enc len z) 0 0 0) s
     (fixed 4 s (fun x s =>
      match s with
      | [] => Part []
      | _ => if len <? 4 then Short []
             else say [FEv (EPushPromise (num x))] (data KFragment (len - 4) z s)
      end)) safe.
Proof.
  intros B L Z. apply ag_fixed; [exact B|cut_field|]. intros u r Lu Bu Br.
  destruct (be_num u Bu Lu) as [E V]. set (v := num u) in *.
  assert (aexec (mkA StPushPromiseStreamId1 (enc len z) 0 0 0) (u ++ r) =
          aexec (mkA StPushPromiseCallback (enc len z) v 0 0) r) as E2.
  { rewrite E. now apply f_push. }
  destruct r as [|x r].
  { eexists. rewrite E2. split; [now rewrite aexec_nil by reflexivity|]. split; [reflexivity|discriminate]. }
  destruct (N.ltb_spec len 4) as [S|S].
  - cbn [ag]. rewrite E2. cbn [aexec post pre1 pre2 a_st a_a].
    assert (adec (enc len z) 4 = None) as ->; [|reflexivity].
    unfold adec. rewrite plen_enc by exact Z. unfold sub32. destruct (N.leb_spec 4 len); [lia|reflexivity].
  - pose proof (adec_enc len z 4 L Z S) as D.
    apply (ag_say _ _ (mkA StHeadersFragment (enc (len - 4) z) v 0 0) (x :: r) u _ _ _ safe).
    + reflexivity.
    + rewrite E2. apply aexec_pre1; try reflexivity. unfold pre1. cbn [a_st a_a]. now rewrite D.
    + apply ag_data; [reflexivity|lia|exact Z].
    + reflexivity.
Qed.

(* Any contents. *)
Definition in_body (t : N) (k : nat) : bool :=
  ((t =? 7) && in_go_away k) || ((t =? 4) && in_setting k).

Lemma ag_contents len t f s : bytes s -> len < 2 ^ 24 ->
  ag (mkA (start t f) (enc len 0) 0 0 0) s (contents len t f s) (in_body t).
Proof.
  intros B L.
  assert (forall k st, kind_of st = Some k -> forall len z s, bytes s -> len < 2 ^ 24 -> z < 256 ->
     ag (mkA st (enc len z) 0 0 0) s (data k len z s) safe) as D.
  { intros k st K n z s' _ L' Z'. now apply ag_data. }
  assert (ag (mkA (if flag_padded f then StUnsupportedPadLength else StUnsupportedData) (enc len 0) 0 0 0) s
             (pad_length (flag_padded f) len s (data KUnsupported)) safe) as U.
  { apply ag_pad_length; try assumption; [tauto|intros _; now apply D|intros _; now apply D]. }
  assert (10 <= t \/ t = 0 \/ t = 1 \/ t = 2 \/ t = 3 \/ t = 4 \/ t = 5 \/ t = 6 \/ t = 7 \/ t = 8 \/ t = 9) as C by lia.
  destruct C as [C|C].
  { apply (ag_weaken _ _ _ safe).
    - destruct t as [|q]; [lia|]. repeat (destruct q as [q|q|]; try exact U; try lia).
    - unfold in_body. destruct (N.eqb_spec t 7), (N.eqb_spec t 4); (reflexivity || lia). }
  repeat destruct C as [C|C]; subst t; cbn [start contents].
  - apply (ag_weaken _ _ _ safe); [|reflexivity].
    apply ag_pad_length; try assumption; [tauto|intros _; now apply D|intros _; now apply D].
  - apply (ag_weaken _ _ _ safe); [|reflexivity]. destruct (flag_priority f) eqn:P.
    + apply ag_pad_length; try assumption; [tauto|intros _; apply ag_prio|intros _; now apply ag_prio].
    + destruct (flag_padded f) eqn:Q.
      * refine (ag_pad_length StHeadersPadLengthWithoutPriority StHeadersCallback true _ _ _ B L _ _ _);
          [tauto| |discriminate].
        intros _ n z s' B' L' Z'.
        apply (ag_say _ _ (mkA StHeadersFragment (enc n z) 0 0 0) s' [] _ _ _ safe).
        -- reflexivity.
        -- now erewrite aexec_post by (cbn [post]; exact eq_refl).
        -- now apply D.
        -- reflexivity.
      * cbn [pad_length]. now apply D.
  - apply (ag_weaken _ _ _ safe); [now apply ag_priority|reflexivity].
  - apply (ag_weaken _ _ _ safe); [now apply ag_rst|reflexivity].
  - apply (ag_weaken _ _ _ in_setting); [now apply ag_settings|reflexivity].
  - apply (ag_weaken _ _ _ safe); [|reflexivity].
    apply ag_pad_length; try assumption; [tauto|intros _; apply ag_push|intros _; now apply ag_push].
  - apply (ag_weaken _ _ _ safe); [|reflexivity]. now apply D.
  - apply (ag_weaken _ _ _ in_go_away); [now apply ag_go_away|].
    unfold in_body. cbn [N.eqb Pos.eqb andb orb]. now rewrite orb_false_r.
  - apply (ag_weaken _ _ _ safe); [now apply ag_window|reflexivity].
  - apply (ag_weaken _ _ _ safe); [|reflexivity]. now apply D.
Qed.

(* A frame. *)
Definition in_frame (t : N) (k : nat) : bool :=
  ((5 <? k)%nat && (k <? 9)%nat) || ((9 <=? k)%nat && in_body t (k - 9)).

Lemma header_of u r : bytes u -> List.length u = 9%nat ->
  exists rsv, u ++ r = render_header (field u 0 3) (field u 3 1) (field u 4 1) rsv (field u 5 4 mod 2 ^ 31) ++ r /\
    field u 0 3 < 2 ^ 24 /\ field u 3 1 < 256 /\ field u 4 1 < 256 /\ field u 5 4 mod 2 ^ 31 < 2 ^ 31.
Proof.
  intros B L.
  destruct u as [|b0 [|b1 [|b2 [|b3 [|b4 [|b5 [|b6 [|b7 [|b8 [|? ?]]]]]]]]]]; try discriminate L.
  unfold field. cbn [firstn skipn].
  do 9 (apply Forall_cons_iff in B; let H := fresh "H" in destruct B as [H B]).
  destruct (be_num3 [b0; b1; b2]) as [E1 V1]; [repeat constructor; assumption|reflexivity|].
  destruct (be_num [b5; b6; b7; b8]) as [E2 V2]; [repeat constructor; assumption|reflexivity|].
  destruct (bit31_num _ V2) as [E3 V3].
  exists (2 ^ 31 <=? num [b5; b6; b7; b8]).
  split; [|split; [exact V1|split; [exact H2|split; [exact H3|exact V3]]]].
  unfold render_header. rewrite <- E3, <- E1, <- E2. reflexivity.
Qed.

Lemma ag_frame s : bytes s -> s <> [] -> ag A0 s (one_frame s) (in_frame (field s 3 1)).
Proof.
  intros B NE. unfold one_frame, fixed. destruct (Nat.ltb_spec (List.length s) 9) as [L|L].
  - destruct s as [|b0 s]; [congruence|]. clear NE. unfold in_frame. 
    assert (forall k w, (k < 9)%nat -> (9 <=? k)%nat && w = false) as Z.
    { intros k w K. destruct (Nat.leb_spec 9 k); [lia|reflexivity]. }
    cbn [ag]. rewrite Z by exact L. rewrite orb_false_r. clear Z.
    do 8 (destruct s as [|? s];
      [eexists; split; [repeat eat1; rewrite ?before_before, aexec_nil by reflexivity; reflexivity|];
       split; [reflexivity|discriminate]|]).
    cbn [List.length] in L. lia.
  - assert (field s 3 1 = field (firstn 9 s) 3 1) as F.
    { clear B NE. do 9 (destruct s as [|? s]; [cbn [List.length] in L; lia|]). reflexivity. }
    destruct (bytes_cut 9 s B) as [B1 B2].
    assert (List.length (firstn 9 s) = 9%nat) as Lu by (rewrite firstn_length; lia).
    destruct (header_of (firstn 9 s) (skipn 9 s) B1 Lu) as (rsv & E & V1 & V2 & V3 & V4).
    rewrite firstn_skipn in E.
    apply (ag_say _ _ (mkA (start (field (firstn 9 s) 3 1) (field (firstn 9 s) 4 1)) (enc (field (firstn 9 s) 0 3) 0) 0 0 0)
             (skipn 9 s) (firstn 9 s) _ _ _ (in_body (field s 3 1))).
    + now rewrite firstn_skipn.
    + rewrite E at 1. now apply aexec_header.
    + rewrite F. now apply ag_contents.
    + unfold in_frame. rewrite skipn_length.
      destruct (Nat.leb_spec 9 (List.length s)); [|lia].
      destruct (Nat.ltb_spec (List.length s) 9); [lia|]. now rewrite andb_false_r.
Qed.

Lemma inside_frame r : inside r = in_frame (field r 3 1) (List.length r).
Proof.
  unfold inside, in_frame, in_body, in_go_away, in_setting. cbv zeta.
  generalize (field r 3 1). intros t. generalize (List.length r). intros k.
  destruct (N.eqb_spec t 7), (N.eqb_spec t 4); subst; try discriminate;
    cbn [andb orb]; rewrite ?andb_true_l, ?orb_false_r, ?andb_false_l, ?andb_false_r, ?orb_false_r; auto;
  repeat match goal with |- context [(?a <? ?b)%nat] => destruct (Nat.ltb_spec a b) end;
  repeat match goal with |- context [(?a <=? ?b)%nat] => destruct (Nat.leb_spec a b) end;
    cbn; (reflexivity || lia).
Qed.


Lemma aexec_whole s e r : bytes s -> one_frame s = Whole e r ->
  aexec A0 s = before e (aexec A0 r) /\ bytes r /\ (List.length r < List.length s)%nat.
Proof.
  intros B E. assert (s <> []) as NE by (intros ->; discriminate E).
  pose proof (ag_frame s B NE) as G. rewrite E in G. destruct G as [G (u & Eu)].
  split; [exact G|]. subst s. split; [now apply Forall_app in B|].
  rewrite app_length. destruct u as [|b u]; [exfalso|cbn [List.length]; lia].
  cbn [app] in *. unfold one_frame, fixed in E.
  destruct (Nat.ltb_spec (List.length r) 9) as [L|L]; [discriminate E|].
  assert (e <> []) as Ne.
  { intros ->. destruct (contents _ _ _ _); cbn [say] in E; discriminate E. }
  assert (fst (aexec A0 r) = e ++ fst (aexec A0 r)) as X by (rewrite G at 1; reflexivity).
  assert (List.length (fst (aexec A0 r)) = (List.length e + List.length (fst (aexec A0 r)))%nat) as Y.
  { rewrite X at 1. apply app_length. }
  destruct e; [congruence|cbn [List.length] in Y; lia].
Qed.

Lemma frames_ok n : forall s, bytes s -> (List.length s < n)%nat ->
  match frames n s with
  | (e, Some r) => exists y, aexec A0 s = (e, Some y) /\ snd (aexec A0 r) = Some y /\
      bad (a_st y) = inside r /\ (a_st y = StFrameLength1 <-> r = []) /\
      exists u, s = u ++ r
  | (e, None) => aexec A0 s = (e, None)
  end.
Proof.
  induction n as [|n IH]; intros s B L; [lia|]. cbn [frames].
  destruct (one_frame s) as [e r|e|e] eqn:E.
  - destruct (aexec_whole s e r B E) as (G & B' & L').
    specialize (IH r B' ltac:(lia)). destruct (frames n r) as [e' [t|]]; cbn [fst snd].
    + destruct IH as (y & Y1 & Y2 & Y3 & Y4 & u & Eu). exists y. rewrite G, Y1. split; [reflexivity|].
      split; [exact Y2|]. split; [exact Y3|]. split; [exact Y4|].
      pose proof (ag_frame s B) as Gs. rewrite E in Gs.
      destruct Gs as [_ (v & ->)]; [intros ->; discriminate E|]. subst r.
      exists (v ++ u). now rewrite app_assoc.
    + now rewrite G, IH.
  - destruct s as [|b s].
    + injection E as <-. exists A0. repeat split; try reflexivity. now exists [].
    + pose proof (ag_frame (b :: s) B ltac:(discriminate)) as G. rewrite E in G.
      destruct G as (y & Y1 & Y2 & Y3). exists y. split; [exact Y1|]. rewrite Y1.
      split; [reflexivity|]. rewrite inside_frame. split; [exact Y2|].
      split; [split; [contradiction|discriminate]|]. now exists [].
  - destruct s as [|b s]; [discriminate E|].
    pose proof (ag_frame (b :: s) B ltac:(discriminate)) as G. now rewrite E in G.
Qed.

Lemma decoded_ok s : bytes s ->
  match snd (decoded s) with
  | Some r => exists y, aexec A0 s = (fst (decoded s), Some y) /\ snd (aexec A0 r) = Some y /\
      bad (a_st y) = inside r /\ (a_st y = StFrameLength1 <-> r = []) /\ exists u, s = u ++ r
  | None => aexec A0 s = (fst (decoded s), None)
  end.
Proof.
  intros B. pose proof (frames_ok (S (List.length s)) s B ltac:(lia)) as F. unfold decoded.
  destruct (frames _ s) as [e [r|]]; exact F.
Qed.
