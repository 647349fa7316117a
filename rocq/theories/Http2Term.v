(* Termination of the loop of the HTTP/2 parser, and what the return values of
   a state function say about the stream. *)

From Coq Require Import NArith List Bool Arith String Lia.
From Verif Require Import Bytes ByteStream Http2Model Http2Wp.
Import ListNotations.
Local Open Scope N_scope.

(* Number of steps a state may make without consuming input. *)
Definition rank (s : pstate) : nat :=
  match s with
  | StFrameFormatEnd | StGoAwayCallback | StHeadersCallback | StPushPromiseCallback => 3
  | StDataData | StGoAwayDebugData | StHeadersFragment | StPingData | StUnsupportedData => 2
  | StFramePadding | StRstStreamCallback | StSettingsCallback | StWindowUpdateCallback => 1
  | _ => 0
  end.

Definition measure (s : pstate) (r : list byte) : nat := 4 * List.length r + rank s.

Lemma rank_le s : (rank s <= 3)%nat.
Proof. destruct s; cbn; lia. Qed.

Lemma frame_target_rank m : (rank (frame_target m) <= 2)%nat.
Proof.
  unfold frame_target.
  repeat match goal with
  | |- context [match ?x with _ => _ end] => destruct x; cbn [rank]; try lia
  end.
Qed.

(* States in which the parser stops for want of bytes. *)
Definition waiting (s : pstate) : bool :=
  match s with
  | StFrameFormatEnd | StGoAwayCallback | StHeadersCallback
  | StRstStreamCallback | StSettingsCallback | StWindowUpdateCallback
  | StDead | StFinished => false
  | _ => true
  end.

Lemma frame_target_waiting m : waiting (frame_target m) = true.
Proof.
  unfold frame_target.
  repeat match goal with
  | |- context [match ?x with _ => _ end] => destruct x; try reflexivity
  end.
Qed.

(* Neither dead nor finished. *)
Definition live (s : pstate) : bool :=
  match s with StDead | StFinished => false | _ => true end.

Lemma waiting_live s : waiting s = true -> live s = true.
Proof. now destruct s. Qed.

(* What a step from machine state m guarantees. *)
Definition step_post (chk : bool) (m m' : mach) (o : outcome) : Prop :=
  (exists x, crest (mc m) = x ++ crest (mc m') /\
             cindex (mc m') = (cindex (mc m) + List.length x)%nat) /\
  match o with
  | Continue =>
      (measure (state_fn (mp m')) (crest (mc m')) <
       measure (state_fn (mp m)) (crest (mc m)))%nat /\
      state (mp m') = state_fn (mp m') /\ live (state_fn (mp m')) = true /\
      cslice (mc m') = []
  | Exit (SCallback n) =>
      n = cindex (mc m') /\
      (measure (state_fn (mp m')) (crest (mc m')) <
       measure (state_fn (mp m)) (crest (mc m)))%nat /\
      (state (mp m) = state_fn (mp m) -> state (mp m') = state_fn (mp m')) /\
      waiting (state_fn (mp m')) = true
  | Exit (SEos n) =>
      n = cindex (mc m') /\ crest (mc m') = [] /\
      state_fn (mp m') = state_fn (mp m) /\ state (mp m') = state (mp m) /\
      waiting (state_fn (mp m')) = true
  | Exit (SFinished n) => state_fn (mp m) = StFinished
  | Fail _ => state_fn (mp m) = StDead
  | Faulted FOverflow => chk = true
  | Faulted FIndexPanic => False
  end.

Lemma sub32_none chk a b : sub32 chk a b = None -> chk = true.
Proof. unfold sub32. destruct (b <=? a), chk; congruence. Qed.

Lemma fn_if {X} (c : bool) (s s' : X) : (if c then s else s') = s \/ (if c then s else s') = s'.
Proof. destruct c; auto. Qed.

(* The bytes consumed. *)
Ltac took :=
  first [ exists []; split; [reflexivity|rewrite ?app_nil_r; cbn; lia]
        | match goal with H : ?r = ?x ++ ?r' |- exists x, ?r = _ ++ ?r' /\ _ =>
            exists x; split; [exact H|rewrite ?app_length; cbn [List.length]; lia] end
        | match goal with |- exists x, ?b0 :: ?b1 :: ?b2 :: ?b3 :: ?r = _ ++ ?r /\ _ =>
            exists [b0; b1; b2; b3] end; split; [reflexivity|rewrite ?app_length; cbn; lia]
        | match goal with |- exists x, ?b0 :: ?b1 :: ?r = _ ++ ?r /\ _ =>
            exists [b0; b1] end; split; [reflexivity|rewrite ?app_length; cbn; lia]
        | match goal with |- exists x, ?b0 :: ?r = _ ++ ?r /\ _ =>
            exists [b0] end; split; [reflexivity|rewrite ?app_length; cbn; lia]
        | match goal with |- exists x, ?r = _ ++ [] /\ _ =>
            exists r end; split; [now rewrite app_nil_r|rewrite ?app_length; cbn; lia] ].

Lemma run_fn_step chk h m : wp (run_fn chk h m) (step_post chk m).
Proof.
  destruct m as [p [cb mk sl r] l]. unfold run_fn. cbn [mp].
  destruct (state_fn p) eqn:Efn; unfold_state.
  all: wp_all.
  all: unfold step_post, measure, cindex; cbv zeta.
  all: cbn [mp mc ml crest cslice cmark cbyte state state_fn p_set_state p_32a p_32b p_16a p_16b
            with_c with_p bs_jump reset_bit_data].
  all: try (split; [took|]).
  all: rewrite ?Efn; cbn [rank waiting].
  all: try (match goal with H : sub32 _ _ _ = None |- _ => exact (sub32_none _ _ _ H) end).
  all: try reflexivity.
  all: repeat match goal with
       | |- context [if ?c then ?s else ?s'] =>
           first [ match type of s with pstate =>
                   destruct (fn_if c s s') as [-> | ->] end ]
       end; cbn [rank waiting live].
  all: repeat match goal with |- _ /\ _ => split end; intros; try reflexivity; try assumption.
  all: try apply frame_target_waiting; try apply waiting_live, frame_target_waiting.
  all: try (match goal with |- context [frame_target ?m] => pose proof (frame_target_rank m) end).
  all: subst; rewrite ?app_length in *; cbn [List.length rank] in *; try lia.
  all: repeat match goal with H : ?l = ?x ++ ?y |- _ =>
         apply (f_equal (@List.length _)) in H; rewrite app_length in H; cbn [List.length] in H end.
  all: try lia.
Qed.

(* ------------------------------------------------------------------ *)
(* The loop                                                             *)
(* ------------------------------------------------------------------ *)

Lemma parse_enough_fuel chk h : forall fuel m,
  (measure (state_fn (mp m)) (crest (mc m)) < fuel)%nat ->
  snd (parse fuel chk h m) <> RFuel.
Proof.
  induction fuel as [|fuel IH]; intros m H; [lia|].
  cbn [parse]. pose proof (run_fn_step chk h m) as S.
  destruct (run_fn chk h m) as [m' o]. unfold wp in S. cbn [fst snd] in S.
  destruct o as [|s|e|f]; try discriminate.
  apply IH. unfold step_post in S. lia.
Qed.

Lemma parse_fuel_of chk h m stream :
  (List.length (crest (mc m)) <= List.length stream)%nat ->
  snd (parse (fuel_of stream) chk h m) <> RFuel.
Proof.
  intros H. apply parse_enough_fuel. unfold measure, fuel_of.
  pose proof (rank_le (state_fn (mp m))). lia.
Qed.

(* The loop as an inductive relation: n calls of run_fn, the last of which does
   not continue. *)
Inductive loop (chk : bool) (h : handler) : nat -> mach -> mach -> outcome -> Prop :=
| loop_exit m m' o : run_fn chk h m = (m', o) -> o <> Continue -> loop chk h 1 m m' o
| loop_step n m m1 m' o :
    run_fn chk h m = (m1, Continue) -> loop chk h n m1 m' o -> loop chk h (S n) m m' o.

(* What parse makes of the last outcome. *)
Definition finish (m : mach) (o : outcome) : mach * result :=
  match o with
  | Continue => (m, RFuel)
  | Exit s =>
      let p := add_count (mp m) (cindex (mc m)) in
      let p := match s with SFinished _ => with_state_only p StFinished | _ => p end in
      (with_p m p, ROk s)
  | Fail e =>
      let p := add_count (mp m) (cindex (mc m)) in
      (with_p m (p_set_state p StDead), RErr e)
  | Faulted f => (m, RFault f)
  end.

Lemma parse_loop chk h : forall fuel m m2 r,
  parse fuel chk h m = (m2, r) -> r <> RFuel ->
  exists n m' o, loop chk h n m m' o /\ (n <= fuel)%nat /\ (m2, r) = finish m' o.
Proof.
  induction fuel as [|fuel IH]; intros m m2 r E N; cbn [parse] in E; [congruence|].
  destruct (run_fn chk h m) as [m' o] eqn:R. destruct o.
  - destruct (IH _ _ _ E N) as (n & m3 & o & L & B & F). exists (S n), m3, o.
    split; [now apply loop_step with m'|]. split; [lia|exact F].
  - exists 1%nat, m', (Exit s). split; [now apply loop_exit|]. split; [lia|]. symmetry. exact E.
  - exists 1%nat, m', (Fail e). split; [now apply loop_exit|]. split; [lia|]. symmetry. exact E.
  - exists 1%nat, m', (Faulted f). split; [now apply loop_exit|]. split; [lia|]. symmetry. exact E.
Qed.

(* One resume call is one run of the loop. *)
Lemma resume_loop chk h p log s p' log' r :
  resume chk h p log s = (p', log', r) ->
  exists n m' o, loop chk h n (Mach p (bs_new s) log) m' o /\ (n <= fuel_of s)%nat /\
    p' = mp (fst (finish m' o)) /\ log' = ml (fst (finish m' o)) /\ r = snd (finish m' o) /\
    r <> RFuel.
Proof.
  unfold resume. intros E.
  pose proof (parse_fuel_of chk h (Mach p (bs_new s) log) s (le_n _)) as N.
  destruct (parse (fuel_of s) chk h (Mach p (bs_new s) log)) as [m2 r2] eqn:P.
  cbn [snd] in N. injection E. intros <- <- <-.
  destruct (parse_loop _ _ _ _ _ _ P N) as (n & m' & o & L & B & F).
  exists n, m', o. rewrite <- F. cbn [fst snd]. repeat split; auto.
Qed.

(* An invariant of the continuing steps holds at the last step. *)
Lemma loop_inv chk h (I : mach -> Prop) :
  (forall m m', I m -> run_fn chk h m = (m', Continue) -> I m') ->
  forall n m m' o, loop chk h n m m' o -> I m ->
  exists m1, I m1 /\ run_fn chk h m1 = (m', o) /\ o <> Continue.
Proof.
  intros P n m m' o L. induction L as [m m' o R N|n m m1 m' o R L IH]; intros H.
  - exists m. auto.
  - exact (IH (P _ _ H R)).
Qed.
