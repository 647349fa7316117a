(* The byte counter does not influence HTTP/2 parsing, and nothing is carried
   over from one frame to the next. *)

From Coq Require Import NArith List Bool Arith String Lia.
From Verif Require Import Bytes ByteStream Http2Model Http2Wp Http2Spec Http2Run Http2Misc Http2Use.
Import ListNotations.
Local Open Scope N_scope.

(* p with another value of byte_count() *)
Definition recount (p : parser) (n : N) : parser :=
  Parser (bit_data32a p) (bit_data32b p) (bit_data16a p) (bit_data16b p) n (state p) (state_fn p).

Definition cm (n : N) (m : mach) : mach := Mach (recount (mp m) n) (mc m) (ml m).
Definition co (n : N) (x : mach * outcome) : mach * outcome := (cm n (fst x), snd x).

Section Count.
Variable n : N.
Variable h : handler.
Variable chk : bool.

Lemma co_if (c c' : bool) a b a' b' : c' = c -> a' = co n a -> b' = co n b ->
  (if c' then a' else b') = co n (if c then a else b).
Proof. intros ->. destruct c; auto. Qed.

Lemma co_eos m m' k k' : m' = cm n m -> (forall m, k' (cm n m) = co n (k m)) ->
  exit_if_eos m' k' = co n (exit_if_eos m k).
Proof. intros -> K. apply co_if; [reflexivity|apply K|reflexivity]. Qed.

Lemma co_u8 m m' k k' : m' = cm n m -> (forall m b, k' (cm n m) b = co n (k m b)) ->
  get_u8 m' k' = co n (get_u8 m k).
Proof.
  intros -> K. unfold get_u8. cbn [cm mc]. destruct (crest (mc m)); [reflexivity|].
  apply (K (with_c m _)).
Qed.

Lemma co_u16 m m' i k k' : m' = cm n m -> (forall m b, k' (cm n m) b = co n (k m b)) ->
  read_u16 m' i k' = co n (read_u16 m i k).
Proof.
  intros -> K. unfold read_u16. cbn [cm mc]. destruct (crest (mc m)) as [|? [|? ?]]; try reflexivity.
  apply (K (with_c m _)).
Qed.

Lemma co_u32 m m' i k k' : m' = cm n m -> (forall m b, k' (cm n m) b = co n (k m b)) ->
  read_u32 m' i k' = co n (read_u32 m i k).
Proof.
  intros -> K. unfold read_u32. cbn [cm mc].
  destruct (crest (mc m)) as [|? [|? [|? [|? ?]]]]; try reflexivity.
  apply (K (with_c m _)).
Qed.

Lemma co_dec m m' l k k' : m' = cm n m -> (forall m, k' (cm n m) = co n (k m)) ->
  dec_payload_length chk m' l k' = co n (dec_payload_length chk m l k).
Proof.
  intros -> K. unfold dec_payload_length.
  change (bit_data32a (mp (cm n m))) with (bit_data32a (mp m)).
  destruct (sub32 _ _ _); [|reflexivity]. apply (K (set32a m _)).
Qed.

Lemma co_call m m' e k k' : m' = cm n m -> (forall m ok, k' (cm n m) ok = co n (k m ok)) ->
  (let '(x, ok) := call h m' e in k' x ok) = co n (let '(x, ok) := call h m e in k x ok).
Proof. intros -> K. unfold call. cbn [cm ml]. apply (K (Mach (mp m) (mc m) (ml m ++ [e]))). Qed.

Lemma co_data m m' cb : m' = cm n m ->
  parse_payload_data chk h m' cb = co n (parse_payload_data chk h m cb).
Proof.
  intros ->. unfold parse_payload_data.
  change (actual_length chk (cm n m)) with (actual_length chk m).
  destruct (actual_length chk m); [|reflexivity]. cbv zeta.
  apply co_if; [reflexivity| |].
  - apply (co_dec (with_c m _)); [reflexivity|]. intros x. unfold call.
    change (bit_data32a (mp (cm n x))) with (bit_data32a (mp x)).
    destruct (0 <? _); apply co_if; reflexivity.
  - apply (co_dec m); [reflexivity|]. intros x. unfold call. apply co_if; reflexivity.
Qed.

Ltac co_unfold :=
  match goal with |- ?f _ _ = co _ (?f _ _) => unfold f | |- ?f _ = co _ (?f _) => unfold f
   | |- ?f _ _ _ = co _ (?f _ _ _) => unfold f end.

Ltac co_step :=
  cbv beta zeta;
  match goal with
  | |- (if _ then _ else _) = co _ (if _ then _ else _) => apply co_if
  | |- exit_if_eos _ _ = _ => apply co_eos; [|intros ?]
  | |- get_u8 _ _ = _ => apply co_u8; [|intros ? ?]
  | |- read_u16 _ _ _ = co _ (read_u16 ?m ?i _) => apply (co_u16 m _ i); [|intros ? ?]
  | |- read_u32 _ _ _ = co _ (read_u32 ?m ?i _) => apply (co_u32 m _ i); [|intros ? ?]
  | |- dec_payload_length _ _ _ _ = co _ (dec_payload_length _ ?m ?l _) => apply (co_dec m _ l); [|intros ?]
  | |- parse_payload_data _ _ _ _ = _ => apply co_data
  | |- transition _ _ = _ => reflexivity
  | |- remark _ = _ => reflexivity
  | |- fail _ _ = _ => reflexivity
  | |- faulted _ _ = _ => reflexivity
  | |- exit_eos _ = _ => reflexivity
  | |- exit_finished _ = _ => reflexivity
  | |- exit_callback _ = _ => reflexivity
  | |- exit_callback_to _ _ = _ => reflexivity
  | |- _ = cm _ _ => reflexivity
  | |- (let '(_, _) := call _ _ _ in _) = _ => unfold call
  | |- _ => co_unfold
  end.

Lemma run_fn_count m : run_fn chk h (cm n m) = co n (run_fn chk h m).
Proof.
  unfold run_fn. change (state_fn (mp (cm n m))) with (state_fn (mp m)).
  destruct (state_fn (mp m)).
  all: repeat co_step.
  all: try reflexivity.
  all: match goal with |- context [payload_length (cm n ?x)] =>
      change (payload_length (cm n x)) with (payload_length x); destruct (0 <? payload_length x)
    end; reflexivity.
Qed.
End Count.

Lemma parse_count chk h fuel : forall m c m' r,
  parse fuel chk h m = (m', r) ->
  exists d, byte_count (mp m') = byte_count (mp m) + d /\
    parse fuel chk h (cm c m) = (cm (c + d) m', r).
Proof.
  induction fuel as [|fuel IH]; intros m c m' r E; cbn [parse] in *.
  - injection E as <- <-. exists 0. rewrite !N.add_0_r. now split.
  - destruct (run_fn chk h m) as [m1 o] eqn:R.
    destruct (wp_run _ _ (run_fn_misc chk h m) _ _ R) as [MC _].
    rewrite (run_fn_count c h chk m), R. cbn [co fst snd].
    destruct o as [|s|e|f].
    + apply (IH m1 c) in E. now rewrite <- MC.
    + injection E as <- <-. exists (N.of_nat (cindex (mc m1))). rewrite <- MC.
      destruct s; now split.
    + injection E as <- <-. exists (N.of_nat (cindex (mc m1))). rewrite <- MC. now split.
    + injection E as <- <-. exists 0. rewrite MC, !N.add_0_r. now split.
Qed.

Lemma resume_recount chk h p c log s p' log' r :
  resume chk h p log s = (p', log', r) ->
  exists d, byte_count p' = byte_count p + d /\
    resume chk h (recount p c) log s = (recount p' (c + d), log', r).
Proof.
  intros E. unfold resume in *.
  destruct (parse _ _ _ _) as [m r0] eqn:P in E. injection E as <- <- <-.
  apply parse_count with (c := c) in P. destruct P as (d & D1 & D2). exists d.
  split; [exact D1|]. unfold cm in D2. cbn [mp mc ml] in D2. now rewrite D2.
Qed.

(* Between two frames. *)
Definition boundary_state (p : parser) : Prop :=
  state p = StFrameLength1 /\ state_fn p = StFrameLength1.

(* p and q cannot be told apart. *)
Definition alike (p q : parser) : Prop :=
  q = recount p (byte_count q) \/ boundary_state p /\ boundary_state q.

(* At the beginning of a frame the bit data is cleared before it is used. *)
Lemma resume_boundary chk h p log s : boundary_state p ->
  resume chk h p log s =
  match s with
  | [] => (p, log, ROk (SEos 0))
  | _ => resume chk h (reset_bit_data p) log s
  end.
Proof.
  intros [S F]. destruct p as [a b c d n s1 s2]. cbn [state state_fn] in S, F. subst s1 s2.
  destruct s as [|x s].
  - unfold resume, fuel_of. cbn [List.length Nat.mul Nat.add parse].
    unfold run_fn, frame_length1, exit_if_eos. cbn [mp state_fn].
    cbn. unfold with_p, add_count. cbn. now rewrite N.add_0_r.
  - reflexivity.
Qed.

Lemma resume_alike chk h p q log s p' log' r : alike p q ->
  resume chk h p log s = (p', log', r) ->
  exists q', resume chk h q log s = (q', log', r) /\ state q' = state p' /\
    byte_count q' - byte_count q = byte_count p' - byte_count p /\ alike p' q'.
Proof.
  intros [E|[Bp Bq]] R.
  - destruct (resume_recount _ _ _ (byte_count q) _ _ _ _ _ R) as (d & D1 & D2).
    rewrite <- E in D2. eexists. split; [exact D2|]. split; [reflexivity|].
    split; [cbn [recount byte_count]; lia|]. left. reflexivity.
  - rewrite (resume_boundary _ _ _ _ _ Bq). rewrite (resume_boundary _ _ _ _ _ Bp) in R.
    destruct s as [|x s].
    + injection R as <- <- <-. exists q. split; [reflexivity|].
      split; [destruct Bp, Bq; congruence|]. split; [lia|]. right. now split.
    + destruct (resume_recount _ _ _ (byte_count q) _ _ _ _ _ R) as (d & D1 & D2).
      cbn [byte_count reset_bit_data] in D1.
      assert (recount (reset_bit_data p) (byte_count q) = reset_bit_data q) as E.
      { destruct Bp as [B1 B2], Bq as [B3 B4]. unfold recount, reset_bit_data.
        cbn [bit_data32a bit_data32b bit_data16a bit_data16b byte_count state state_fn].
        now rewrite B1, B2, B3, B4. }
      rewrite E in D2. eexists. split; [exact D2|]. split; [reflexivity|].
      split; [cbn [recount byte_count]; lia|]. left. reflexivity.
Qed.

Lemma observe_alike chk h ops : forall p q log, alike p q ->
  observe chk h p log ops = observe chk h q log ops.
Proof.
  induction ops as [|o ops IH]; intros p q log A; cbn [observe]; [reflexivity|].
  destruct o as [|s]; cbn [perform counted].
  - reflexivity.
  - destruct (resume chk h p log s) as [[p' l'] r] eqn:R.
    destruct (resume_alike _ _ _ _ _ _ _ _ _ A R) as (q' & -> & S & C & A').
    rewrite S, C. f_equal. now apply IH.
Qed.

Lemma h2_reset_fresh chk h p log ops :
  state (reset p) = state new /\ byte_count (reset p) = byte_count new /\ byte_count new = 0 /\
  observe chk h (reset p) log ops = observe chk h new log ops.
Proof. repeat (split; [reflexivity|]). apply observe_alike. left. reflexivity. Qed.

Lemma h2_boundary_fresh chk h p log ops : reachable chk p -> state p = StFrameLength1 ->
  observe chk h p log ops = observe chk h new log ops.
Proof.
  intros R S. apply observe_alike. right.
  split; [|now split]. split; [exact S|]. rewrite <- S. symmetry.
  apply (reachable_history _ _ R).
Qed.
