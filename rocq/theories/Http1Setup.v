(* What set_boundary and set_length change, and what happens without them. *)

From Coq Require Import NArith List Bool Arith String Lia.
From Verif Require Import Bytes ByteStream Http1Model Http1Base Http1Wp Http1Spec Http1Sim Http1Misc Http1Use Http1Client Http1Count Http1Setting.
Import ListNotations.
Local Open Scope N_scope.

(* p with another boundary *)
Definition rebound (p : parser) (n : option (list byte)) : parser :=
  Parser (bit_data p) n (byte_count p) (plength p) (parser_type p) (state p) (state_fn p).

Definition bm (n : option (list byte)) (m : mach) : mach := Mach (rebound (mp m) n) (mc m) (ml m).
Definition bo (n : option (list byte)) (x : mach * outcome) : mach * outcome := (bm n (fst x), snd x).

Section bCount.
Variable n : option (list byte).
Variable h : handler.

Lemma bo_if (c c' : bool) a b a' b' : c' = c -> a' = bo n a -> b' = bo n b ->
  (if c' then a' else b') = bo n (if c then a else b).
Proof. intros ->. destruct c; auto. Qed.

Lemma bo_starts m m' lit a b a' b' : m' = bm n m -> a' = bo n a -> b' = bo n b ->
  if_starts_with m' lit a' b' = bo n (if_starts_with m lit a b).
Proof.
  intros -> -> ->. unfold if_starts_with. cbn [bm mc]. destruct (bs_starts_with _ _) as [[]|]; reflexivity.
Qed.

Lemma bo_next m m' k k' : m' = bm n m -> (forall m b, k' (bm n m) b = bo n (k m b)) ->
  next_or_eos m' k' = bo n (next_or_eos m k).
Proof.
  intros -> K. unfold next_or_eos. cbn [bm mc]. destruct (bs_next (mc m)); [|reflexivity].
  apply (K (with_c m c)).
Qed.

Lemma bo_unchecked m m' k k' : m' = bm n m -> (forall m b, k' (bm n m) b = bo n (k m b)) ->
  next_unchecked m' k' = bo n (next_unchecked m k).
Proof.
  intros -> K. unfold next_unchecked. cbn [bm mc]. destruct (bs_next (mc m)); [|reflexivity].
  apply (K (with_c m c)).
Qed.

Lemma bo_collecting r r' m m' ke ke' k k' : r' = r -> m' = bm n m ->
  (forall m, ke' (bm n m) = bo n (ke m)) ->
  (forall m b, k' (bm n m) b = bo n (k m b)) ->
  collecting r' m' ke' k' = bo n (collecting r m ke k).
Proof.
  intros -> -> KE K. unfold collecting.
  destruct r; [apply (K (with_c m c))|apply (KE (with_c m c))|reflexivity].
Qed.

Lemma bo_callback m m' e k k' : m' = bm n m ->
  (forall m, k' (bm n m) = bo n (k m)) ->
  callback_data h m' e k' = bo n (callback_data h m e k).
Proof.
  intros -> K. unfold callback_data, call. cbn [bm ml]. destruct (h_ret _ _ _); [|reflexivity].
  apply (K (Mach (mp m) (mc m) (ml m ++ [e]))).
Qed.

Lemma bo_slice m m' e k k' : m' = bm n m ->
  (forall m, k' (bm n m) = bo n (k m)) ->
  callback_slice h m' e k' = bo n (callback_slice h m e k).
Proof.
  intros -> K. unfold callback_slice. cbn [bm mc]. apply bo_if; [reflexivity|now apply bo_callback|apply K].
Qed.

Lemma bo_eos m m' k : m' = bm n m -> callback_eos h m' k = bo n (callback_eos h m k).
Proof. intros ->. now apply bo_slice. Qed.

Lemma bo_trans_slice m m' k s : m' = bm n m ->
  callback_transition_slice h m' k s = bo n (callback_transition_slice h m k s).
Proof. intros ->. now apply bo_slice. Qed.

Lemma bo_trans_data m m' e s : m' = bm n m ->
  callback_transition_data h m' e s = bo n (callback_transition_data h m e s).
Proof. intros ->. now apply bo_callback. Qed.

Lemma bo_ignore m m' k s : m' = bm n m ->
  callback_ignore_transition h m' k s = bo n (callback_ignore_transition h m k s).
Proof.
  intros ->. unfold callback_ignore_transition. cbv zeta.
  apply bo_if; [reflexivity| |reflexivity]. now apply bo_callback.
Qed.

Lemma bo_chain m m' tbl k k' : m' = bm n m -> k' = bo n k ->
  name_chain h m' tbl k' = bo n (name_chain h m tbl k).
Proof.
  intros -> K. induction tbl as [|[[lit name] len] tbl IH]; cbn [name_chain]; [exact K|].
  apply bo_starts; [reflexivity| |exact IH]. now apply bo_trans_data.
Qed.

Lemma bo_slow m : first_header_name_slow (bm n m) = bo n (first_header_name_slow m).
Proof. apply bo_next; [reflexivity|]. intros. now apply bo_if. Qed.

(* Unfold the state function at the head of both sides. *)
Ltac bo_unfold :=
  match goal with |- ?f _ _ = bo _ (?f _ _) => unfold f | |- ?f _ = bo _ (?f _) => unfold f
   | |- ?f _ _ _ = bo _ (?f _ _ _) => unfold f | |- ?f _ _ _ _ = bo _ (?f _ _ _ _) => unfold f
   | |- ?f _ _ _ _ _ = bo _ (?f _ _ _ _ _) => unfold f | |- ?f _ _ _ _ _ _ = bo _ (?f _ _ _ _ _ _) => unfold f end.

Ltac bo_step :=
  cbv beta zeta;
  match goal with
  | |- (if _ then _ else _) = bo _ (if _ then _ else _) => apply bo_if
  | |- next_or_eos _ _ = _ => apply bo_next; [|intros ? ?]
  | |- next_unchecked _ _ = _ => apply bo_unchecked; [|intros ? ?]
  | |- collecting _ _ _ _ = _ => apply bo_collecting; [| |intros ?|intros ? ?]
  | |- if_starts_with _ _ _ _ = _ => apply bo_starts
  | |- name_chain _ _ _ _ = _ => apply bo_chain
  | |- callback_eos _ _ _ = _ => apply bo_eos
  | |- callback_ignore_transition _ _ _ _ = _ => apply bo_ignore
  | |- callback_transition_slice _ _ _ _ = _ => apply bo_trans_slice
  | |- callback_slice _ _ _ _ = _ => apply bo_slice; [|intros ?]
  | |- callback_transition_data _ _ _ _ = _ => apply bo_trans_data
  | |- callback_data _ _ _ _ = _ => apply bo_callback; [|intros ?]
  | |- first_header_name_slow _ = _ => apply bo_slow
  | |- transition _ _ = _ => reflexivity
  | |- transition_no_remark _ _ = _ => reflexivity
  | |- remark _ = _ => reflexivity
  | |- fail _ _ = _ => reflexivity
  | |- faulted _ _ = _ => reflexivity
  | |- exit_eos _ = _ => reflexivity
  | |- exit_finished _ = _ => reflexivity
  | |- exit_callback _ = _ => reflexivity
  | |- _ = bm _ _ => reflexivity
  | |- (match ?x with _ => _ end) = bo _ (match ?y with _ => _ end) => change x with y; destruct y
  | |- _ => bo_unfold
  end.

Lemma run_fn_bound m : state_fn (mp m) <> StMultipartBoundary ->
  run_fn h (bm n m) = bo n (run_fn h m).
Proof.
  intros X. unfold run_fn. change (state_fn (mp (bm n m))) with (state_fn (mp m)).
  destruct (state_fn (mp m)); try congruence; clear X.
  all: repeat bo_step.
  all: try reflexivity.
Qed.
End bCount.

(* p with another length *)
Definition relen (p : parser) (n : N) : parser :=
  Parser (bit_data p) (boundary p) (byte_count p) n (parser_type p) (state p) (state_fn p).

Definition lm (n : N) (m : mach) : mach := Mach (relen (mp m) n) (mc m) (ml m).
Definition lo (n : N) (x : mach * outcome) : mach * outcome := (lm n (fst x), snd x).

Section lCount.
Variable n : N.
Variable h : handler.

Lemma lo_if (c c' : bool) a b a' b' : c' = c -> a' = lo n a -> b' = lo n b ->
  (if c' then a' else b') = lo n (if c then a else b).
Proof. intros ->. destruct c; auto. Qed.

Lemma lo_starts m m' lit a b a' b' : m' = lm n m -> a' = lo n a -> b' = lo n b ->
  if_starts_with m' lit a' b' = lo n (if_starts_with m lit a b).
Proof.
  intros -> -> ->. unfold if_starts_with. cbn [lm mc]. destruct (bs_starts_with _ _) as [[]|]; reflexivity.
Qed.

Lemma lo_next m m' k k' : m' = lm n m -> (forall m b, k' (lm n m) b = lo n (k m b)) ->
  next_or_eos m' k' = lo n (next_or_eos m k).
Proof.
  intros -> K. unfold next_or_eos. cbn [lm mc]. destruct (bs_next (mc m)); [|reflexivity].
  apply (K (with_c m c)).
Qed.

Lemma lo_unchecked m m' k k' : m' = lm n m -> (forall m b, k' (lm n m) b = lo n (k m b)) ->
  next_unchecked m' k' = lo n (next_unchecked m k).
Proof.
  intros -> K. unfold next_unchecked. cbn [lm mc]. destruct (bs_next (mc m)); [|reflexivity].
  apply (K (with_c m c)).
Qed.

Lemma lo_collecting r r' m m' ke ke' k k' : r' = r -> m' = lm n m ->
  (forall m, ke' (lm n m) = lo n (ke m)) ->
  (forall m b, k' (lm n m) b = lo n (k m b)) ->
  collecting r' m' ke' k' = lo n (collecting r m ke k).
Proof.
  intros -> -> KE K. unfold collecting.
  destruct r; [apply (K (with_c m c))|apply (KE (with_c m c))|reflexivity].
Qed.

Lemma lo_callback m m' e k k' : m' = lm n m ->
  (forall m, k' (lm n m) = lo n (k m)) ->
  callback_data h m' e k' = lo n (callback_data h m e k).
Proof.
  intros -> K. unfold callback_data, call. cbn [lm ml]. destruct (h_ret _ _ _); [|reflexivity].
  apply (K (Mach (mp m) (mc m) (ml m ++ [e]))).
Qed.

Lemma lo_slice m m' e k k' : m' = lm n m ->
  (forall m, k' (lm n m) = lo n (k m)) ->
  callback_slice h m' e k' = lo n (callback_slice h m e k).
Proof.
  intros -> K. unfold callback_slice. cbn [lm mc]. apply lo_if; [reflexivity|now apply lo_callback|apply K].
Qed.

Lemma lo_eos m m' k : m' = lm n m -> callback_eos h m' k = lo n (callback_eos h m k).
Proof. intros ->. now apply lo_slice. Qed.

Lemma lo_trans_slice m m' k s : m' = lm n m ->
  callback_transition_slice h m' k s = lo n (callback_transition_slice h m k s).
Proof. intros ->. now apply lo_slice. Qed.

Lemma lo_trans_data m m' e s : m' = lm n m ->
  callback_transition_data h m' e s = lo n (callback_transition_data h m e s).
Proof. intros ->. now apply lo_callback. Qed.

Lemma lo_ignore m m' k s : m' = lm n m ->
  callback_ignore_transition h m' k s = lo n (callback_ignore_transition h m k s).
Proof.
  intros ->. unfold callback_ignore_transition. cbv zeta.
  apply lo_if; [reflexivity| |reflexivity]. now apply lo_callback.
Qed.

Lemma lo_chain m m' tbl k k' : m' = lm n m -> k' = lo n k ->
  name_chain h m' tbl k' = lo n (name_chain h m tbl k).
Proof.
  intros -> K. induction tbl as [|[[lit name] len] tbl IH]; cbn [name_chain]; [exact K|].
  apply lo_starts; [reflexivity| |exact IH]. now apply lo_trans_data.
Qed.

Lemma lo_slow m : first_header_name_slow (lm n m) = lo n (first_header_name_slow m).
Proof. apply lo_next; [reflexivity|]. intros. now apply lo_if. Qed.

(* Unfold the state function at the head of both sides. *)
Ltac lo_unfold :=
  match goal with |- ?f _ _ = lo _ (?f _ _) => unfold f | |- ?f _ = lo _ (?f _) => unfold f
   | |- ?f _ _ _ = lo _ (?f _ _ _) => unfold f | |- ?f _ _ _ _ = lo _ (?f _ _ _ _) => unfold f
   | |- ?f _ _ _ _ _ = lo _ (?f _ _ _ _ _) => unfold f | |- ?f _ _ _ _ _ _ = lo _ (?f _ _ _ _ _ _) => unfold f end.

Ltac lo_step :=
  cbv beta zeta;
  match goal with
  | |- (if _ then _ else _) = lo _ (if _ then _ else _) => apply lo_if
  | |- next_or_eos _ _ = _ => apply lo_next; [|intros ? ?]
  | |- next_unchecked _ _ = _ => apply lo_unchecked; [|intros ? ?]
  | |- collecting _ _ _ _ = _ => apply lo_collecting; [| |intros ?|intros ? ?]
  | |- if_starts_with _ _ _ _ = _ => apply lo_starts
  | |- name_chain _ _ _ _ = _ => apply lo_chain
  | |- callback_eos _ _ _ = _ => apply lo_eos
  | |- callback_ignore_transition _ _ _ _ = _ => apply lo_ignore
  | |- callback_transition_slice _ _ _ _ = _ => apply lo_trans_slice
  | |- callback_slice _ _ _ _ = _ => apply lo_slice; [|intros ?]
  | |- callback_transition_data _ _ _ _ = _ => apply lo_trans_data
  | |- callback_data _ _ _ _ = _ => apply lo_callback; [|intros ?]
  | |- first_header_name_slow _ = _ => apply lo_slow
  | |- transition _ _ = _ => reflexivity
  | |- transition_no_remark _ _ = _ => reflexivity
  | |- remark _ = _ => reflexivity
  | |- fail _ _ = _ => reflexivity
  | |- faulted _ _ = _ => reflexivity
  | |- exit_eos _ = _ => reflexivity
  | |- exit_finished _ = _ => reflexivity
  | |- exit_callback _ = _ => reflexivity
  | |- _ = lm _ _ => reflexivity
  | |- (match ?x with _ => _ end) = lo _ (match ?y with _ => _ end) => change x with y; destruct y
  | |- _ => lo_unfold
  end.

(* The states in which the length is looked at or set. *)
Definition len_state (s : pstate) : bool :=
  match s with
  | StChunkLength1 | StChunkLength2 | StChunkLength3 | StChunkLength4 | StChunkLength5
  | StChunkLength6 | StChunkLength7 | StChunkLength8 | StChunkLengthCr | StChunkData
  | StMultipartDetectData | StMultipartDataByLength => true
  | _ => false
  end.

Lemma run_fn_len m : len_state (state_fn (mp m)) = false ->
  run_fn h (lm n m) = lo n (run_fn h m).
Proof.
  intros X. unfold run_fn. change (state_fn (mp (lm n m))) with (state_fn (mp m)).
  destruct (state_fn (mp m)); try discriminate X; clear X.
  all: repeat lo_step.
  all: try reflexivity.
Qed.
End lCount.
(* ------------------------------------------------------------------ *)
(* Another boundary                                                     *)
(* ------------------------------------------------------------------ *)

Definition bd_free (p : parser) : Prop :=
  parser_type p <> Multipart /\ vstate (parser_type p) (state_fn p) = true.

Lemma bd_free_state p : bd_free p -> state_fn p <> StMultipartBoundary.
Proof. intros [T V] X. rewrite X in V. cbn in V. destruct (parser_type p); congruence. Qed.

Lemma bd_free_run h m m' o : bd_free (mp m) -> run_fn h m = (m', o) -> bd_free (mp m').
Proof.
  intros [T V] R. split.
  - now rewrite (mi_type _ _ _ (wp_run _ _ (run_fn_misc h m) _ _ R)).
  - exact (proj1 (wp_run _ _ (run_fn_vstate h m V) _ _ R)).
Qed.

Lemma parse_type h fuel : forall m m' r, parse fuel h m = (m', r) ->
  parser_type (mp m') = parser_type (mp m).
Proof.
  induction fuel as [|fuel IH]; intros m m' r E; cbn [parse] in *; [now injection E as <- <-|].
  destruct (run_fn h m) as [m1 o] eqn:R.
  pose proof (mi_type _ _ _ (wp_run _ _ (run_fn_misc h m) _ _ R)) as T.
  destruct o as [|[k|k|k]|e|f]; try (injection E as <- <-; exact T).
  rewrite <- T. now apply (IH m1 m' r).
Qed.

Lemma parse_bound h b fuel : forall m m' r,
  bd_free (mp m) -> parse fuel h m = (m', r) ->
  parse fuel h (bm b m) = (bm b m', r) /\ bd_free (mp m').
Proof.
  induction fuel as [|fuel IH]; intros m m' r F E; cbn [parse] in *.
  - injection E as <- <-. now split.
  - destruct (run_fn h m) as [m1 o] eqn:R.
    rewrite (run_fn_bound b h m (bd_free_state _ F)), R. cbn [bo fst snd].
    pose proof (bd_free_run _ _ _ _ F R) as F1.
    destruct o as [|s|e|f].
    + now apply IH.
    + injection E as <- <-. destruct s; split; try reflexivity; exact F1.
    + injection E as <- <-. split; [reflexivity|]. destruct F1. now split.
    + injection E as <- <-. now split.
Qed.

Lemma resume_bound h b p log s p' log' r :
  bd_free p -> resume h p log s = (p', log', r) ->
  resume h (rebound p b) log s = (rebound p' b, log', r) /\ bd_free p'.
Proof.
  intros F E. unfold resume in *. change (parser_type (rebound p b)) with (parser_type p).
  assert (P0 : forall n x m r, parse n h (Mach p (bs_new x) log) = (m, r) ->
     parse n h (Mach (rebound p b) (bs_new x) log) = (bm b m, r) /\ bd_free (mp m)).
  { intros n x m r0 P. exact (parse_bound h b n (Mach p (bs_new x) log) _ _ F P). }
  destruct (parser_type p) eqn:T.
  1-3: destruct (parse _ _ _) as [m r0] eqn:P in E; injection E as <- <- <-;
    apply P0 in P; destruct P as (D1 & D2); rewrite D1; now split.
  cbv zeta in *. change (plength (rebound p b)) with (plength p).
  destruct (parse _ _ _) as [m r0] eqn:P in E.
  pose proof (parse_type _ _ _ _ _ P) as T1. cbn [mp] in T1. destruct (P0 _ _ _ _ P) as (-> & F1). clear P.
  destruct r0 as [[k|k|k]|e|f|].
  - change (plength (mp (bm b m))) with (plength (mp m)).
    destruct (_ <? _); injection E as <- <- <-; now split.
  - change (plength (mp (bm b m))) with (plength (mp m)).
    destruct (plength (mp m) <? _); [injection E as <- <- <-; now split|].
    destruct (_ =? 0); [|injection E as <- <- <-; now split].
    destruct (parse _ h (with_p m _)) as [m2 r2] eqn:P2 in E. injection E as <- <- <-.
    apply (parse_bound h b) in P2.
    + change (with_p (bm b m) (p_set_state (mp (bm b m)) StBodyFinished))
        with (bm b (with_p m (p_set_state (mp m) StBodyFinished))).
      destruct P2 as [-> F2]. now split.
    + cbn [with_p mp p_set_state]. split; cbn [parser_type state_fn p_set_state]; rewrite T1, T; [discriminate|reflexivity].
  - injection E as <- <- <-; now split.
  - injection E as <- <- <-; now split.
  - injection E as <- <- <-; now split.
  - injection E as <- <- <-; now split.
Qed.

Lemma observe_bound h b ops : forall c p log, bd_free p ->
  observe h c (rebound p b) log ops = observe h c p log ops.
Proof.
  induction ops as [|o ops IH]; intros c p log F; cbn [observe]; [reflexivity|].
  destruct o; cbn [perform]; try reflexivity.
  - (* OpSetLength *)
    change (set_length (rebound p b) n) with (rebound (set_length p n) b).
    rewrite (IH c (set_length p n) log F). reflexivity.
  - destruct (resume h p log s) as [[p1 l1] r] eqn:R.
    apply (resume_bound h b) in R; [|assumption]. destruct R as (-> & F1).
    rewrite (IH c p1 l1 F1). reflexivity.
Qed.

Lemma set_boundary_unseen h p b log ops : reachable p -> parser_type p <> Multipart ->
  observe h (byte_count p) (set_boundary p b) log ops = observe h (byte_count p) p log ops.
Proof. intros R T. apply (observe_bound h (Some b)). split; [assumption|now apply reachable_vstate]. Qed.

(* ------------------------------------------------------------------ *)
(* Another length                                                       *)
(* ------------------------------------------------------------------ *)

Definition len_free (p : parser) : Prop :=
  (parser_type p = Head \/ parser_type p = Multipart /\ state_fn p <> StMultipartDataByLength) /\
  vstate (parser_type p) (state_fn p) = true.

Lemma run_fn_no_len h m :
  vstate (parser_type (mp m)) (state_fn (mp m)) = true ->
  state_fn (mp m) <> StMultipartDataByLength -> state_fn (mp m) <> StMultipartDetectData ->
  wp (run_fn h m) (fun m' o => state_fn (mp m') <> StMultipartDataByLength).
Proof.
  destruct m as [p [cb mk sl r] l]. unfold run_fn. cbn [mp].
  destruct (state_fn p) eqn:Efn; destruct (parser_type p) eqn:Et; intros V X Y; try discriminate V; clear V;
    try congruence; clear X Y.
  all: unfold_state; lits.
  all: wp_all.
  all: cbn [mp mc ml state_fn p_set_state set_lower14 set_upper14
     with_bits with_length parser_type]; rewrite ?Efn, ?Et; try discriminate.
  all: try (destruct (_ =? _); discriminate).
Qed.

Lemma run_len h n m m' o : len_free (mp m) -> run_fn h m = (m', o) ->
  run_fn h (lm n m) = (m', o) \/ run_fn h (lm n m) = (lm n m', o) /\ len_free (mp m').
Proof.
  intros [T V] R.
  assert (V' : vstate (parser_type (mp m')) (state_fn (mp m')) = true)
    by exact (proj1 (wp_run _ _ (run_fn_vstate h m V) _ _ R)).
  pose proof (mi_type _ _ _ (wp_run _ _ (run_fn_misc h m) _ _ R)) as T'.
  destruct (state_fn (mp m)) eqn:Efn;
    try (right; rewrite (run_fn_len n h m), R by (rewrite Efn; reflexivity); split; [reflexivity|split; [|exact V']];
         rewrite T'; destruct T as [T|[T T2]]; [left; exact T|right; split; [exact T|]];
         refine (wp_run _ _ (run_fn_no_len h m _ _ _) _ _ R); rewrite Efn; try exact V; discriminate).
  all: try (exfalso; destruct T as [T|[T T2]]; rewrite T in V; cbn in V; congruence).
  (* multipart_detect_data *)
  assert (T0 : parser_type (mp m) = Multipart)
    by (destruct T as [T|[T T2]]; [rewrite T in V; discriminate V|exact T]).
  unfold run_fn in *. change (state_fn (mp (lm n m))) with (state_fn (mp m)). rewrite Efn in *.
  unfold multipart_detect_data in *. cbn [lm ml mp mc] in *.
  destruct (h_clen h (ml m)); injection R as <- <-; [left; reflexivity|right].
  split; [reflexivity|]. split; [|exact V']. right. split; [exact T0|discriminate].
Qed.

Lemma parse_len h n fuel : forall m m' r,
  len_free (mp m) -> parse fuel h m = (m', r) ->
  parse fuel h (lm n m) = (m', r) \/ parse fuel h (lm n m) = (lm n m', r) /\ len_free (mp m').
Proof.
  induction fuel as [|fuel IH]; intros m m' r F E; cbn [parse] in *.
  - injection E as <- <-. right. now split.
  - destruct (run_fn h m) as [m1 o] eqn:R.
    destruct (run_len h n m m1 o F R) as [->|[-> F1]]; [left; exact E|].
    destruct o as [|s|e|f].
    + now apply IH.
    + injection E as <- <-. right. destruct s; split; try reflexivity; exact F1.
    + injection E as <- <-. right. split; [reflexivity|]. destruct F1 as [[F1|[F1 F3]] F2];
        (split; [|reflexivity]); [left|right; split]; try exact F1; discriminate.
    + injection E as <- <-. right. now split.
Qed.

Lemma resume_len h n p log s p' log' r :
  len_free p -> resume h p log s = (p', log', r) ->
  resume h (relen p n) log s = (p', log', r) \/
  resume h (relen p n) log s = (relen p' n, log', r) /\ len_free p'.
Proof.
  intros F E. unfold resume in *. change (parser_type (relen p n)) with (parser_type p).
  assert (P0 : forall k x m r, parse k h (Mach p (bs_new x) log) = (m, r) ->
     parse k h (Mach (relen p n) (bs_new x) log) = (m, r) \/
     parse k h (Mach (relen p n) (bs_new x) log) = (lm n m, r) /\ len_free (mp m)).
  { intros k x m r0 P. exact (parse_len h n k (Mach p (bs_new x) log) _ _ F P). }
  pose proof F as [[T|[T _]] _]; rewrite T in *.
  all: destruct (parse _ _ _) as [m r0] eqn:P in E; injection E as <- <- <-;
    apply P0 in P; destruct P as [D1|[D1 D2]]; rewrite D1; [left; reflexivity|right; now split].
Qed.

Lemma observe_len h n ops : forall c p log, len_free p ->
  observe h c (relen p n) log ops = observe h c p log ops.
Proof.
  induction ops as [|o ops IH]; intros c p log F; cbn [observe]; [reflexivity|].
  destruct o; cbn [perform]; try reflexivity.
  - (* OpSetBoundary *)
    change (set_boundary (relen p n) b) with (relen (set_boundary p b) n).
    rewrite (IH c (set_boundary p b) log F). reflexivity.
  - destruct (resume h p log s) as [[p1 l1] r] eqn:R.
    apply (resume_len h n) in R; [|assumption]. destruct R as [->|[-> F1]]; [reflexivity|].
    rewrite (IH c p1 l1 F1). reflexivity.
Qed.

Lemma set_length_unseen h p n log ops : reachable p ->
  parser_type p = Head \/ parser_type p = Multipart /\ state p <> StMultipartDataByLength ->
  observe h (byte_count p) (set_length p n) log ops = observe h (byte_count p) p log ops.
Proof.
  intros R T. apply (observe_len h n). split; [|now apply reachable_vstate].
  destruct T as [T|[T X]]; [now left|right]. split; [assumption|].
  destruct (reachable_state p R) as [H|H]; congruence.
Qed.

(* ------------------------------------------------------------------ *)
(* Without a boundary                                                   *)
(* ------------------------------------------------------------------ *)

(* A multipart parser without boundary, after k hyphens. *)
Definition unset (c : N) (s : pstate) : parser :=
  Parser (bit_data (init_multipart new)) None c 0 Multipart s s.

Definition hyphens (k : nat) : pstate :=
  match k with O => StMultipartHyphen1 | S O => StMultipartHyphen2 | _ => StMultipartBoundary end.

Definition unset_post (k : nat) (s : list byte) (p' : parser) (r : result) : Prop :=
  match without_boundary (repeat 45 k ++ s) with
  | OEos => (exists c n, p' = unset c (hyphens (k + List.length s)) /\ r = ROk (SEos n)) /\
            (k + List.length s <= 2)%nat /\ s = repeat 45 (List.length s)
  | OError e => r = RErr e
  | OFault f => r = RFault f
  | _ => False
  end.

Lemma fuel_S s : exists n, fuel_of s = S (S (S (S n))).
Proof. unfold fuel_of. exists (8 * List.length s + 12)%nat. lia. Qed.

Lemma parse_eq f h m : parse (S f) h m =
  let '(m', o) := run_fn h m in
  match o with
  | Continue => parse f h m'
  | Exit s => (with_p m' (match s with SFinished _ => with_state_only (add_count (mp m') (cindex (mc m'))) StFinished
                          | _ => add_count (mp m') (cindex (mc m')) end), ROk s)
  | Fail e => (with_p m' (p_set_state (add_count (mp m') (cindex (mc m'))) StDead), RErr e)
  | Faulted f => (m', RFault f)
  end.
Proof. reflexivity. Qed.

Lemma parse_boundary f h c cx : exists m r,
  parse (S f) h (Mach (unset c StMultipartBoundary) cx []) = (m, r) /\ ml m = [] /\
  unset_post 2 (crest cx) (mp m) r.
Proof.
  cbn [parse]. unfold run_fn. cbn [mp unset state_fn]. unfold multipart_boundary.
  cbn [mc mp boundary]. unfold bs_available. destruct cx as [cb mk sl [|b r]]; cbn [crest List.length Nat.eqb].
  - do 2 eexists. split; [reflexivity|]. split; [reflexivity|].
    split; [|cbn; auto]. do 2 eexists. split; reflexivity.
  - do 2 eexists. split; [reflexivity|]. split; [reflexivity|]. reflexivity.
Qed.

Lemma parse_hyphen2 f h c cx : exists m r,
  parse (S (S f)) h (Mach (unset c StMultipartHyphen2) cx []) = (m, r) /\ ml m = [] /\
  unset_post 1 (crest cx) (mp m) r.
Proof.
  rewrite parse_eq. unfold run_fn. cbn [mp unset state_fn]. unfold multipart_hyphen2, multipart_hyphen, next_or_eos.
  cbn [mc mp]. unfold bs_next. destruct cx as [cb mk sl [|b r]]; cbn [crest].
  - do 2 eexists. split; [reflexivity|]. split; [reflexivity|].
    split; [|cbn; auto]. do 2 eexists. split; reflexivity.
  - cbn [cbyte mc with_c]. destruct (b =? 45) eqn:E.
    + apply N.eqb_eq in E. subst b.
      destruct (parse_boundary f h c (bs_mark (Ctx 45 mk (sl ++ [45]) r))) as (m & r0 & P & L & U).
      exists m, r0. split; [exact P|]. split; [exact L|].
      unfold unset_post in *. cbn [repeat app without_boundary bs_mark crest] in *.
      cbn [N.eqb Pos.eqb negb] in *. destruct r; [|exact U].
      destruct U as ((c1 & n1 & U1 & U2) & _). split; [|cbn; auto].
      exists c1, n1. split; [exact U1|exact U2].
    + do 2 eexists. split; [reflexivity|]. split; [reflexivity|].
      unfold unset_post. cbn [repeat app without_boundary N.eqb Pos.eqb negb]. rewrite E. reflexivity.
Qed.

Lemma parse_hyphen1 f h c cx : exists m r,
  parse (S (S (S f))) h (Mach (unset c StMultipartHyphen1) cx []) = (m, r) /\ ml m = [] /\
  unset_post 0 (crest cx) (mp m) r.
Proof.
  rewrite parse_eq. unfold run_fn. cbn [mp unset state_fn]. unfold multipart_hyphen1, multipart_hyphen, next_or_eos.
  cbn [mc mp]. unfold bs_next. destruct cx as [cb mk sl [|b r]]; cbn [crest].
  - do 2 eexists. split; [reflexivity|]. split; [reflexivity|].
    split; [|cbn; auto]. do 2 eexists. split; reflexivity.
  - cbn [cbyte mc with_c]. destruct (b =? 45) eqn:E.
    + apply N.eqb_eq in E. subst b.
      destruct (parse_hyphen2 f h c (bs_mark (Ctx 45 mk (sl ++ [45]) r))) as (m & r0 & P & L & U).
      exists m, r0. split; [exact P|]. split; [exact L|].
      unfold unset_post in *. cbn [repeat app without_boundary bs_mark crest] in *.
      cbn [N.eqb Pos.eqb negb] in *. destruct r as [|b2 r].
      * destruct U as ((c1 & n1 & U1 & U2) & _). split; [|cbn; auto].
        exists c1, n1. split; [exact U1|exact U2].
      * destruct (b2 =? 45) eqn:E2; cbn [negb] in *; [|exact U]. destruct r; [|exact U].
        apply N.eqb_eq in E2. subst b2.
        destruct U as ((c1 & n1 & U1 & U2) & _). split; [|cbn; auto].
        exists c1, n1. split; [exact U1|exact U2].
    + do 2 eexists. split; [reflexivity|]. split; [reflexivity|].
      unfold unset_post. cbn [repeat app without_boundary N.eqb Pos.eqb negb]. rewrite E. reflexivity.
Qed.

Lemma resume_unset h k c s : (k <= 2)%nat ->
  exists p' r, resume h (unset c (hyphens k)) [] s = (p', [], r) /\ unset_post k s p' r.
Proof.
  intros K. unfold resume. cbn [unset parser_type]. destruct (fuel_S s) as [f ->].
  assert (X : exists m r, parse (S (S (S (S f)))) h (Mach (unset c (hyphens k)) (bs_new s) []) = (m, r) /\
    ml m = [] /\ unset_post k s (mp m) r).
  { destruct k as [|[|[|k]]]; [| | |lia].
    - apply (parse_hyphen1 (S f) h c (bs_new s)).
    - apply (parse_hyphen2 (S (S f)) h c (bs_new s)).
    - apply (parse_boundary (S (S (S f))) h c (bs_new s)). }
  destruct X as (m & r & P & L & U). rewrite P, L. eauto.
Qed.

Lemma without_more k s t : (k + List.length s <= 2)%nat -> s = repeat 45 (List.length s) ->
  repeat 45 k ++ s ++ t = repeat 45 (k + List.length s) ++ t.
Proof. intros K E. rewrite E at 1. now rewrite app_assoc, <- repeat_app. Qed.

(* Once decided, further bytes do not matter. *)
Lemma without_decided s t : without_boundary s <> OEos -> without_boundary (s ++ t) = without_boundary s.
Proof.
  destruct s as [|b1 [|b2 [|b3 s]]]; cbn [app without_boundary]; [congruence| | |].
  - destruct (b1 =? 45); cbn [negb]; congruence.
  - destruct (b1 =? 45); cbn [negb]; [|congruence]. destruct (b2 =? 45); cbn [negb]; congruence.
  - reflexivity.
Qed.

Lemma client_unset h : forall segs fuel k c p' log rest o, (k <= 2)%nat ->
  client fuel h (unset c (hyphens k)) [] segs = (p', log, rest, o) -> o <> OFuel ->
  log = [] /\ o = without_boundary (repeat 45 k ++ List.concat segs).
Proof.
  induction segs as [|seg more IH]; intros fuel k c p' log rest o K E N.
  - destruct fuel; cbn [client] in E; injection E as <- <- <- <-; split; try reflexivity;
      destruct k as [|[|[|k]]]; try reflexivity; lia.
  - destruct fuel as [|fuel]; [injection E as <- <- <- <-; congruence|]. cbn [client] in E.
    destruct (resume_unset h k c seg K) as (p1 & r & R & U). rewrite R in E. clear R.
    unfold unset_post in U. cbn [List.concat].
    pose proof (without_decided (repeat 45 k ++ seg) (List.concat more)) as W'.
    destruct (without_boundary (repeat 45 k ++ seg)) eqn:W.
    + destruct U as ((c1 & n & -> & ->) & K2 & S2). apply IH in E; [|lia|assumption].
      destruct E as [-> ->]. split; [reflexivity|]. now rewrite without_more.
    + contradiction.
    + subst r. injection E as <- <- <- <-. split; [reflexivity|].
      rewrite app_assoc. symmetry. apply W'. discriminate.
    + subst r. injection E as <- <- <- <-. split; [reflexivity|].
      rewrite app_assoc. symmetry. apply W'. discriminate.
    + contradiction.
Qed.

Lemma no_boundary h q segs :
  exists p' rest, feed h (init_multipart q) segs = (p', [], rest, without_boundary (List.concat segs)).
Proof.
  destruct (feed h (init_multipart q) segs) as [[[p' log] rest] o] eqn:F.
  assert (N : o <> OFuel).
  { pose proof (feed_ends h (init_multipart q) segs eq_refl) as X. rewrite F in X. exact X. }
  unfold feed in F. change (init_multipart q) with (unset (byte_count q) (hyphens 0)) in F.
  apply client_unset in F; [|lia|assumption]. destruct F as [-> ->]. eauto.
Qed.

(* ------------------------------------------------------------------ *)
(* Without a length                                                     *)
(* ------------------------------------------------------------------ *)

Lemma cut_none s : (if 0 <? N.of_nat (List.length s) then firstn (N.to_nat 0) s else s : list byte) = [].
Proof. destruct s; reflexivity. Qed.

Lemma resume_no_length h q s :
  exists p', resume h (init_url_encoded q) [] s =
    (p', [EBodyFinished], if h_ret h [] EBodyFinished then ROk (SFinished 0) else ROk (SCallback 0)) /\
    parser_type p' = UrlEncoded /\ plength p' = 0 /\ state_fn p' = StFinished.
Proof.
  unfold resume. cbn [init_url_encoded reset with_type parser_type p_set_state plength]. cbv zeta.
  rewrite cut_none. cbn. destruct (h_ret h [] EBodyFinished); cbn; eauto.
Qed.

Lemma resume_over h p log s : parser_type p = UrlEncoded -> plength p = 0 -> state_fn p = StFinished ->
  exists p', resume h p log s = (p', log, ROk (SFinished 0)).
Proof.
  intros T L F. unfold resume. rewrite T, L. cbv zeta. rewrite cut_none. destruct p. cbn in T, L, F. subst.
  cbn. eauto.
Qed.

Lemma no_length h q segs : segs <> [] ->
  exists p', feed h (init_url_encoded q) segs = (p', [EBodyFinished], List.concat segs, OFinished).
Proof.
  intros N. unfold feed. destruct segs as [|seg more]; [congruence|].
  assert (C : exists n, calls (seg :: more) = S (S n)) by (exists (8 * List.length seg + 6 + calls more)%nat; cbn [calls]; lia).
  destruct C as [n ->]. cbn [client].
  destruct (resume_no_length h q seg) as (p1 & -> & T & L & F). destruct (h_ret h [] EBodyFinished).
  - cbn [skipn List.concat]. eauto.
  - cbn [skipn client]. destruct (resume_over h p1 [EBodyFinished] seg T L F) as (p2 & ->).
    cbn [skipn List.concat]. eauto.
Qed.

(* ------------------------------------------------------------------ *)
(* A length on a parser for chunks                                      *)
(* ------------------------------------------------------------------ *)

Lemma set_length_chunked : exists n w,
  let '(_, log, rest, o) := feed yes (init_chunked new) [w] in
  let '(_, log', rest', o') := feed yes (set_length (init_chunked new) n) [w] in
  log = [EChunkBegin; EChunkLength 0; EHeadersFinished; EBodyFinished] /\ o = OFinished /\
  log' = [EChunkBegin; EChunkLength n; EChunkExtsFinished; EData KChunkData crlf] /\ o' = OEos.
Proof. exists 3, [48; 13; 10; 13; 10]. vm_compute. repeat split; reflexivity. Qed.
