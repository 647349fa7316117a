(* How much is reported to an HTTP/2 handler: proofs. *)

From Coq Require Import NArith List Bool Arith String Lia.
From Verif Require Import Bytes ByteStream Http2Model Http2Spec Http2Wp Http2Term Http2Sem Http2Sim Http2Run
  Http2Misc Http2Bound Http2Api.
Import ListNotations.
Local Open Scope N_scope.

(* ------------------------------------------------------------------ *)
(* One step                                                             *)
(* ------------------------------------------------------------------ *)

(* A frame counts k calls more. *)
Definition cost (k : nat) (l : list event) : nat := (List.length l + k * frames l)%nat.

(* The calls that may be made in a state beyond one for each byte read. *)
Definition owed (k : nat) (s : pstate) : nat :=
  match s with
  | StDead | StFinished | StFramePadding => 0
  | StFrameLength1 => k - 7
  | StFrameLength2 => k - 6
  | StFrameLength3 => k - 5
  | StFrameType => k - 4
  | StFrameFlags => k - 3
  | StFrameStreamId1 => k - 2
  | StFrameStreamId2 => k - 1
  | StFrameStreamId3 => k
  | StFrameStreamId4 => k + 1
  | StFrameFormatEnd => k + 2
  | StHeadersCallback | StGoAwayCallback | StPushPromiseCallback => 2
  | _ => 1
  end.

Definition unread (m : mach) (o : outcome) : nat :=
  List.length (crest (mc m)) + match o with Continue => List.length (cslice (mc m)) | _ => 0 end.

Definition bound_post (k : nat) (m m' : mach) (o : outcome) : Prop :=
  exists x, ml m' = ml m ++ x /\
  (cost k x + unread m' o + match o with Fail _ | Faulted _ => 0 | _ => owed k (state_fn (mp m')) end
   <= unread m Continue + owed k (state_fn (mp m)))%nat /\
  (data_bytes x + unread m' o <= unread m Continue)%nat.

Lemma bound_silent k m p c o :
  (unread (Mach p c (ml m)) o + match o with Fail _ | Faulted _ => 0 | _ => owed k (state_fn p) end
   <= unread m Continue + owed k (state_fn (mp m)))%nat ->
  (unread (Mach p c (ml m)) o <= unread m Continue)%nat ->
  bound_post k m (Mach p c (ml m)) o.
Proof.
  intros H D. exists []. split; [now rewrite app_nil_r|]. unfold cost. cbn [List.length frames data_bytes].
  split; [|exact D]. rewrite Nat.mul_0_r. exact H.
Qed.

Definition data_of (e : event) : nat := match e with EData _ d _ => List.length d | _ => 0 end.
Definition cost_of (k : nat) (e : event) : nat := match e with EFrameFormat _ _ _ _ => S k | _ => 1 end.

Lemma bound_event k m p c e o :
  (cost_of k e + unread (Mach p c (ml m)) o + match o with Fail _ | Faulted _ => 0 | _ => owed k (state_fn p) end
   <= unread m Continue + owed k (state_fn (mp m)))%nat ->
  (data_of e + unread (Mach p c (ml m)) o <= unread m Continue)%nat ->
  bound_post k m (Mach p c (ml m ++ [e])) o.
Proof.
  intros H D. exists [e]. split; [reflexivity|]. unfold cost.
  destruct e; cbn [List.length frames data_bytes data_of cost_of] in *; unfold unread in *; cbn [mp mc crest cslice] in *;
    (split; [|lia]); destruct o; lia.
Qed.

Lemma nonempty {X} (l : list X) : l <> [] -> (1 <= List.length l)%nat.
Proof. destruct l; [congruence|cbn; lia]. Qed.

Lemma target_owed k m : owed k (frame_target m) = 1%nat.
Proof.
  unfold frame_target.
  repeat match goal with
  | |- owed k (match ?x with _ => _ end) = _ => destruct x
  | _ => reflexivity
  end.
Qed.

Lemma run_fn_bound k chk h m : (k <= 7)%nat -> wp (run_fn chk h m) (bound_post k m).
Proof.
  intros K. destruct m as [p [cb mk sl r] l]. unfold run_fn. cbn [mp mc cslice].
  destruct (state_fn p) eqn:Efn.
  all: unfold_state.
  all: wp_all.
  all: match goal with
       | |- bound_post _ _ (Mach _ _ (?z ++ [_])%list) _ => apply (bound_event k (Mach _ _ z))
       | |- bound_post _ _ (Mach _ _ ?z) _ => apply (bound_silent k (Mach _ _ z))
       end.
  all: repeat match goal with H : ?d <> [] |- _ => apply nonempty in H end.
  all: boolP.
  all: unfold unread; cbn [mc mp crest cslice state_fn p_set_state p_32a p_32b p_16a p_16b reset_bit_data data_of cost_of] in *;
       rewrite ?Efn in *; rewrite ?target_owed; cbn [owed].
  all: repeat match goal with E : ?r = (_ ++ _)%list |- _ => subst r || rewrite E in * end.
  all: repeat match goal with
       | |- context [owed _ (if ?b then _ else _)] => destruct b; cbn [owed]
       end.
  all: rewrite ?app_length, ?skipn_length, ?firstn_length in *; cbn [List.length] in *.
  all: try lia.
Qed.

(* ------------------------------------------------------------------ *)
(* One call                                                             *)
(* ------------------------------------------------------------------ *)

Lemma frames_app a b : frames (a ++ b) = (frames a + frames b)%nat.
Proof. induction a as [|[] a IH]; cbn [app frames]; lia. Qed.

Lemma cost_app k a b : cost k (a ++ b) = (cost k a + cost k b)%nat.
Proof. unfold cost. rewrite app_length, frames_app. lia. Qed.

Lemma data_app a b : data_bytes (a ++ b) = (data_bytes a + data_bytes b)%nat.
Proof. induction a as [|[] a IH]; cbn [app data_bytes]; lia. Qed.

Lemma loop_bound k chk h n m m' o : (k <= 7)%nat -> loop chk h n m m' o -> bound_post k m m' o.
Proof.
  intros K L. induction L as [m m' o R N|n m m1 m' o R L IH].
  - exact (wp_run _ _ (run_fn_bound k chk h m K) _ _ R).
  - destruct (wp_run _ _ (run_fn_bound k chk h m K) _ _ R) as (x & X1 & X2 & X3).
    destruct IH as (y & Y1 & Y2 & Y3). exists (x ++ y).
    split; [now rewrite Y1, X1, app_assoc|]. rewrite cost_app, data_app. split; [|lia].
    destruct o; lia.
Qed.

Lemma resume_bound k chk h p log s p' log' r :
  (k <= 7)%nat -> live (state_fn p) = true -> resume chk h p log s = (p', log', r) ->
  exists x n, log' = log ++ x /\ (n <= List.length s)%nat /\
    match r with
    | ROk (SCallback i) | ROk (SEos i) | ROk (SFinished i) => n = i
    | _ => True
    end /\
    (cost k x + match r with RFault _ => 0 | _ => owed k (state_fn p') end <= n + owed k (state_fn p))%nat /\
    (data_bytes x <= n)%nat.
Proof.
  intros K Lv E. destruct (resume_loop _ _ _ _ _ _ _ _ E) as (i & m' & o & L & _ & -> & -> & -> & NF).
  destruct (loop_bound k _ _ _ _ _ _ K L) as (x & X1 & X2 & X3).
  destruct (loop_facts _ _ _ _ _ _ L Lv) as [(y & C1 & C2) P].
  unfold cindex at 2 in C2. unfold unread in *. cbn [mc mp ml bs_new crest cmark cslice List.length] in *.
  rewrite Nat.add_0_l in C2.
  assert (Ls : List.length s = (List.length y + List.length (crest (mc m')))%nat) by (rewrite C1; apply app_length).
  exists x, (List.length y).
  destruct o as [|[n|n|n]|e|[]]; cbn [finish snd fst mp ml with_p add_count state state_fn] in *; try tauto.
  - destruct P as (-> & P2). split; [exact X1|]. split; [lia|]. split; [lia|]. lia.
  - destruct P as (-> & P2). split; [exact X1|]. split; [lia|]. split; [lia|]. lia.
  - split; [exact X1|]. split; [lia|]. split; [exact I|]. lia.
Qed.

(* ------------------------------------------------------------------ *)
(* The client                                                           *)
(* ------------------------------------------------------------------ *)

Lemma client_bound k chk h fuel : (k <= 7)%nat -> forall p log segs p' log' o,
  live (state_fn p) = true -> client fuel chk h p log segs = (p', log', o) ->
  (cost k log' <= cost k log + List.length (List.concat segs) + owed k (state_fn p))%nat /\
  (data_bytes log' <= data_bytes log + List.length (List.concat segs))%nat.
Proof.
  intros K. induction fuel as [|fuel IH]; intros p log segs p' log' o Lv E; cbn [client] in E.
  - destruct segs; injection E as <- <- <-; split; lia.
  - destruct segs as [|seg more]; [injection E as <- <- <-; split; lia|].
    destruct (resume chk h p log seg) as [[p1 log1] r] eqn:R.
    destruct (resume_bound k _ _ _ _ _ _ _ _ K Lv R) as (x & n & X1 & X2 & X3 & X4 & X5).
    pose proof (resume_facts _ _ _ _ _ _ _ _ Lv R) as F.
    subst log1. cbn [List.concat]. rewrite app_length.
    pose proof (cost_app k log x) as A. pose proof (data_app log x) as D.
    destruct r as [[i|i|i]|e|f|]; try contradiction.
    + subst n. destruct F as (_ & _ & _ & W). apply waiting_live in W.
      apply IH in E; [|exact W]. cbn [List.concat] in E. rewrite !app_length, skipn_length in E. lia.
    + subst n. destruct F as (_ & _ & W). apply waiting_live in W.
      apply IH in E; [|exact W]. lia.
    + injection E as <- <- <-. lia.
Qed.

Lemma owed_0 s : waiting s = true -> (owed 0 s <= 2)%nat.
Proof. destruct s; cbn; intros; try discriminate; lia. Qed.

Lemma bound_one chk h p log s p' log' r :
  reachable chk p -> resume chk h p log s = (p', log', r) ->
  exists n, (n <= List.length s)%nat /\
    match r with
    | ROk (SCallback k) | ROk (SEos k) | ROk (SFinished k) => n = k
    | _ => True
    end /\
    (List.length log' <= List.length log + n + 2)%nat /\
    (data_bytes log' <= data_bytes log + n)%nat.
Proof.
  intros R E. destruct (reachable_history _ _ R) as [W _].
  destruct (resume_bound 0 _ _ _ _ _ _ _ _ (Nat.le_0_l _) (waiting_live _ W) E) as (x & n & -> & X2 & X3 & X4 & X5).
  exists n. split; [exact X2|]. split; [exact X3|]. rewrite app_length, data_app. pose proof (owed_0 _ W).
  unfold cost in X4. lia.
Qed.

Lemma bound_stream chk h p segs p' log o :
  reachable chk p -> feed chk h p segs = (p', log, o) ->
  (List.length log <= List.length (List.concat segs) + 2)%nat /\
  (data_bytes log <= List.length (List.concat segs))%nat.
Proof.
  intros R E. destruct (reachable_history _ _ R) as [W _].
  destruct (client_bound 0 _ _ _ (Nat.le_0_l _) _ _ _ _ _ _ (waiting_live _ W) E) as [X Y].
  unfold cost in X. cbn [List.length data_bytes frames] in X, Y. pose proof (owed_0 _ W). lia.
Qed.

Lemma bound_fresh chk h p q segs p' log o :
  p = new \/ p = reset q -> feed chk h p segs = (p', log, o) ->
  (List.length log + 7 * frames log <= List.length (List.concat segs))%nat /\
  (data_bytes log <= List.length (List.concat segs))%nat.
Proof.
  intros I E.
  assert (Lv : live (state_fn p) = true /\ owed 7 (state_fn p) = 0%nat) by (destruct I as [-> | ->]; now split).
  destruct Lv as [Lv O].
  destruct (client_bound 7 _ _ _ (le_n _) _ _ _ _ _ _ Lv E) as [X Y].
  unfold cost in X. cbn [List.length data_bytes frames] in X, Y. lia.
Qed.
