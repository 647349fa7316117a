(* Termination of the main loop of the HTTP/1 parser, and what the return
   values of a state function say about the stream. *)

From Coq Require Import NArith List Bool Arith String Lia.
From Verif Require Import Bytes ByteStream Http1Model Http1Base Http1Wp.
Import ListNotations.
Local Open Scope N_scope.

(* ------------------------------------------------------------------ *)
(* Measure                                                              *)
(* ------------------------------------------------------------------ *)

(* Does the stream go on with an upper-case letter? *)
Definition hd_upper (r : list byte) : bool :=
  match r with b :: _ => is_upper b | [] => false end.

(* Number of steps a state may make without consuming input. *)
Definition rank (s : pstate) (r : list byte) : nat :=
  match s with
  | StHeaderCr2 => 5
  | StCheckHeaderName => 4
  | StFirstHeaderName | StStripChunkExtensionName | StHeaderEnd => 3
  | StUpperHeaderName | StUpperChunkExtensionName => if hd_upper r then 1 else 2
  | StLowerHeaderName | StLowerChunkExtensionName => if hd_upper r then 2 else 1
  | StStripChunkExtensionValue | StMultipartDetectData => 2
  | StChunkExtensionValue | StMultipartDataByLength | StBodyFinished | StStripDetect
  | StRequestVersionMinor2 | StRequestVersionMinor3
  | StResponseVersionMinor2 | StResponseVersionMinor3
  | StResponseStatus1 | StInitialEnd | StStripHeaderValue
  | StChunkLength2 | StChunkLength3 | StChunkLength4 | StChunkLength5 | StChunkLength6
  | StChunkLength7 | StChunkLength8 | StChunkExtensionsFinished | StChunkData
  | StMultipartBoundary | StFirstUrlEncodedName | StUrlEncodedNamePlus | StUrlEncodedValuePlus => 1
  | _ => 0
  end.

Definition measure (s : pstate) (r : list byte) : nat := 8 * List.length r + rank s r.

Lemma rank_le s r : (rank s r <= 5)%nat.
Proof. destruct s; cbn; try destruct (hd_upper r); lia. Qed.

(* ------------------------------------------------------------------ *)
(* One step                                                             *)
(* ------------------------------------------------------------------ *)

(* What a step from machine state m guarantees. *)
Definition step_post (m m' : mach) (o : outcome) : Prop :=
  match o with
  | Continue =>
      (measure (state_fn (mp m')) (crest (mc m')) <
       measure (state_fn (mp m)) (crest (mc m)))%nat
  | Exit (SCallback n) =>
      n = cindex (mc m') /\
      (measure (state_fn (mp m')) (crest (mc m')) <=
       measure (state_fn (mp m)) (crest (mc m)))%nat /\
      (cslice (mc m) = [] ->
       measure (state_fn (mp m')) (crest (mc m')) <
       measure (state_fn (mp m)) (crest (mc m)))%nat
  | Exit (SEos n) => n = cindex (mc m') /\ crest (mc m') = []
  | Exit (SFinished n) =>
      n = cindex (mc m') /\ state_fn (mp m) = StFinished /\ m' = m
  | Fail _ => True
  | Faulted _ => True
  end.

Ltac list_len :=
  repeat (rewrite ?app_length in *; cbn [List.length] in *).

Ltac boolP :=
  repeat match goal with
  | H : (_ && _) = true |- _ => apply andb_true_iff in H; destruct H
  | H : (_ =? _)%nat = true |- _ => apply Nat.eqb_eq in H
  | H : (_ =? _)%nat = false |- _ => apply Nat.eqb_neq in H
  | H : (_ <=? _)%nat = true |- _ => apply Nat.leb_le in H
  | H : (_ <=? _)%nat = false |- _ => apply Nat.leb_gt in H
  | H : (_ <? _)%nat = true |- _ => apply Nat.ltb_lt in H
  | H : (_ <? _)%nat = false |- _ => apply Nat.ltb_ge in H
  | H : (_ <=? _) = true |- _ => apply N.leb_le in H
  | H : (_ <=? _) = false |- _ => apply N.leb_gt in H
  | H : (_ <? _) = true |- _ => apply N.ltb_lt in H
  | H : (_ <? _) = false |- _ => apply N.ltb_ge in H
  end.

Lemma upper_token b : is_upper b = true -> is_token b = Some true.
Proof.
  unfold is_upper. intros H. boolP.
  assert (E : b = 65 \/ b = 66 \/ b = 67 \/ b = 68 \/ b = 69 \/ b = 70 \/ b = 71 \/ b = 72 \/
    b = 73 \/ b = 74 \/ b = 75 \/ b = 76 \/ b = 77 \/ b = 78 \/ b = 79 \/ b = 80 \/ b = 81 \/
    b = 82 \/ b = 83 \/ b = 84 \/ b = 85 \/ b = 86 \/ b = 87 \/ b = 88 \/ b = 89 \/ b = 90) by lia.
  repeat destruct E as [->|E]; try reflexivity. now subst.
Qed.

Lemma nonnil_length {X} (l : list X) : l <> [] -> (0 < List.length l)%nat.
Proof. destruct l; [congruence|cbn; lia]. Qed.

(* Facts about the emptiness of lists, as facts about lengths. *)
Ltac nilP :=
  repeat match goal with
  | H : _ <> [] |- _ => apply nonnil_length in H
  | H : List.length ?r = O |- _ => apply length_zero_iff_nil in H; subst
  end.

Ltac step_leaf :=
  subst; nilP; cbn [app hd_upper] in *;
  rewrite ?app_length in *; cbn [List.length] in *;
  try reflexivity; try lia; try (cbn; lia);
  repeat match goal with
  | H : (_ || _)%bool = true |- _ => apply orb_true_iff in H; destruct H
  | |- context [if ?c then _ else _] => destruct c eqn:?
  | |- context [match parser_type ?p with _ => _ end] => destruct (parser_type p); cbn [rank]
  end; try congruence; cbn [rank]; try lia.

Lemma run_fn_step h m : wp (run_fn h m) (step_post m).
Proof.
  destruct m as [p [cb mk sl r] l]. unfold run_fn. cbn [mp].
  destruct (state_fn p) eqn:Efn; unfold_state; lits.
  all: wp_all.
  all: unfold step_post, measure; cbn [mp mc ml crest cslice cmark state_fn p_set_state set_lower14 set_upper14
     with_bits with_length cindex]; rewrite ?Efn; cbn [rank].
  all: try exact I.
  all: repeat match goal with |- _ /\ _ => split end; intros; try reflexivity; try assumption.
  all: boolP; rewrite ?app_length, ?skipn_length; cbn [List.length skipn firstn app] in *; try lia.
  all: step_leaf.
  all: try (destruct x; cbn [app hd_upper List.length] in *; [congruence|lia]).
  - exfalso. boolP. rewrite skipn_length in *. lia.
  - boolP. rewrite firstn_length, skipn_length. rewrite Nat.min_l by lia. apply skipn_all.
Qed.

(* ------------------------------------------------------------------ *)
(* The loop                                                             *)
(* ------------------------------------------------------------------ *)

Lemma parse_enough_fuel h : forall fuel m,
  (measure (state_fn (mp m)) (crest (mc m)) < fuel)%nat ->
  snd (parse fuel h m) <> RFuel.
Proof.
  induction fuel as [|fuel IH]; intros m H; [lia|].
  cbn [parse]. pose proof (run_fn_step h m) as S.
  destruct (run_fn h m) as [m' o]. unfold wp in S. cbn [fst snd] in S.
  destruct o as [|s|e|f]; try discriminate.
  apply IH. unfold step_post in S. lia.
Qed.

(* More fuel changes nothing once the loop ends. *)
Lemma parse_more_fuel h : forall fuel m,
  snd (parse fuel h m) <> RFuel ->
  forall fuel', (fuel <= fuel')%nat -> parse fuel' h m = parse fuel h m.
Proof.
  induction fuel as [|fuel IH]; intros m H fuel' L; [now cbn in H|].
  destruct fuel' as [|fuel']; [lia|].
  cbn [parse] in *. destruct (run_fn h m) as [m' o].
  destruct o; auto. apply IH; [assumption|lia].
Qed.

Lemma measure_fuel s r : (measure s r < fuel_of r)%nat.
Proof. unfold measure, fuel_of. pose proof (rank_le s r). lia. Qed.

Lemma parse_fuel_of h m stream :
  (List.length (crest (mc m)) <= List.length stream)%nat ->
  snd (parse (fuel_of stream) h m) <> RFuel.
Proof.
  intros H. apply parse_enough_fuel. unfold measure, fuel_of.
  pose proof (rank_le (state_fn (mp m)) (crest (mc m))). lia.
Qed.

(* The loop as an inductive relation: run_fn until it does not continue. *)
Inductive loop (h : handler) : mach -> mach -> outcome -> Prop :=
| loop_exit m m' o : run_fn h m = (m', o) -> o <> Continue -> loop h m m' o
| loop_step m m1 m' o : run_fn h m = (m1, Continue) -> loop h m1 m' o -> loop h m m' o.

(* What parse makes of the last outcome. *)
Definition finish (m : mach) (o : outcome) : mach * result :=
  match o with
  | Continue => (m, RFuel)
  | Exit s =>
      let p := add_count (mp m) (cindex (mc m)) in
      let p := match s with SFinished _ => with_state_only p StFinished | _ => p end in
      (with_p m p, ROk s)
  | Fail e =>
      let p := add_count (mp m) (cindex (mc m)) in
      (with_p m (p_set_state p StDead), RErr e)
  | Faulted f => (m, RFault f)
  end.

Lemma parse_loop h : forall fuel m m2 r,
  parse fuel h m = (m2, r) -> r <> RFuel ->
  exists m' o, loop h m m' o /\ (m2, r) = finish m' o.
Proof.
  induction fuel as [|fuel IH]; intros m m2 r E N; cbn [parse] in E; [congruence|].
  destruct (run_fn h m) as [m' o] eqn:R. destruct o.
  - destruct (IH _ _ _ E N) as (m3 & o & L & F). exists m3, o. split; [|exact F].
    now apply loop_step with m'.
  - exists m', (Exit s). split; [now apply loop_exit|]. symmetry. exact E.
  - exists m', (Fail e). split; [now apply loop_exit|]. symmetry. exact E.
  - exists m', (Faulted f). split; [now apply loop_exit|]. symmetry. exact E.
Qed.

(* Induction principle: an invariant of the continuing steps holds at the last
   step. *)
Lemma loop_inv h (I : mach -> Prop) :
  (forall m m', I m -> run_fn h m = (m', Continue) -> I m') ->
  forall m m' o, loop h m m' o -> I m ->
  exists m1, I m1 /\ run_fn h m1 = (m', o) /\ o <> Continue /\
    (measure (state_fn (mp m1)) (crest (mc m1)) <= measure (state_fn (mp m)) (crest (mc m)))%nat /\
    (m1 = m \/
     (measure (state_fn (mp m1)) (crest (mc m1)) < measure (state_fn (mp m)) (crest (mc m)))%nat).
Proof.
  intros P m m' o L. induction L as [m m' o R N|m m1 m' o R L IH]; intros H.
  - exists m. repeat split; auto.
  - destruct (IH (P _ _ H R)) as (m2 & H1 & H2 & H3 & H4 & H5).
    pose proof (wp_run _ _ (run_fn_step h m) _ _ R) as S. unfold step_post in S.
    exists m2. repeat split; auto.
    + lia.
    + right. lia.
Qed.
