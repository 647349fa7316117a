(* The byte counter does not influence parsing; reset parsers are fresh. *)

From Coq Require Import NArith List Bool Arith String Lia.
From Verif Require Import Bytes ByteStream Http1Model Http1Base Http1Wp Http1Spec Http1Sim Http1Misc Http1Use.
Import ListNotations.
Local Open Scope N_scope.

(* p with another value of byte_count() *)
Definition recount (p : parser) (n : N) : parser :=
  Parser (bit_data p) (boundary p) n (plength p) (parser_type p) (state p) (state_fn p).

Definition cm (n : N) (m : mach) : mach := Mach (recount (mp m) n) (mc m) (ml m).
Definition co (n : N) (x : mach * outcome) : mach * outcome := (cm n (fst x), snd x).

Section Count.
Variable n : N.
Variable h : handler.

Lemma co_if (c c' : bool) a b a' b' : c' = c -> a' = co n a -> b' = co n b ->
  (if c' then a' else b') = co n (if c then a else b).
Proof. intros ->. destruct c; auto. Qed.

Lemma co_starts m m' lit a b a' b' : m' = cm n m -> a' = co n a -> b' = co n b ->
  if_starts_with m' lit a' b' = co n (if_starts_with m lit a b).
Proof.
  intros -> -> ->. unfold if_starts_with. cbn [cm mc]. destruct (bs_starts_with _ _) as [[]|]; reflexivity.
Qed.

Lemma co_next m m' k k' : m' = cm n m -> (forall m b, k' (cm n m) b = co n (k m b)) ->
  next_or_eos m' k' = co n (next_or_eos m k).
Proof.
  intros -> K. unfold next_or_eos. cbn [cm mc]. destruct (bs_next (mc m)); [|reflexivity].
  apply (K (with_c m c)).
Qed.

Lemma co_unchecked m m' k k' : m' = cm n m -> (forall m b, k' (cm n m) b = co n (k m b)) ->
  next_unchecked m' k' = co n (next_unchecked m k).
Proof.
  intros -> K. unfold next_unchecked. cbn [cm mc]. destruct (bs_next (mc m)); [|reflexivity].
  apply (K (with_c m c)).
Qed.

Lemma co_collecting r r' m m' ke ke' k k' : r' = r -> m' = cm n m ->
  (forall m, ke' (cm n m) = co n (ke m)) ->
  (forall m b, k' (cm n m) b = co n (k m b)) ->
  collecting r' m' ke' k' = co n (collecting r m ke k).
Proof.
  intros -> -> KE K. unfold collecting.
  destruct r; [apply (K (with_c m c))|apply (KE (with_c m c))|reflexivity].
Qed.

Lemma co_callback m m' e k k' : m' = cm n m ->
  (forall m, k' (cm n m) = co n (k m)) ->
  callback_data h m' e k' = co n (callback_data h m e k).
Proof.
  intros -> K. unfold callback_data, call. cbn [cm ml]. destruct (h_ret _ _ _); [|reflexivity].
  apply (K (Mach (mp m) (mc m) (ml m ++ [e]))).
Qed.

Lemma co_slice m m' e k k' : m' = cm n m ->
  (forall m, k' (cm n m) = co n (k m)) ->
  callback_slice h m' e k' = co n (callback_slice h m e k).
Proof.
  intros -> K. unfold callback_slice. cbn [cm mc]. apply co_if; [reflexivity|now apply co_callback|apply K].
Qed.

Lemma co_eos m m' k : m' = cm n m -> callback_eos h m' k = co n (callback_eos h m k).
Proof. intros ->. now apply co_slice. Qed.

Lemma co_trans_slice m m' k s : m' = cm n m ->
  callback_transition_slice h m' k s = co n (callback_transition_slice h m k s).
Proof. intros ->. now apply co_slice. Qed.

Lemma co_trans_data m m' e s : m' = cm n m ->
  callback_transition_data h m' e s = co n (callback_transition_data h m e s).
Proof. intros ->. now apply co_callback. Qed.

Lemma co_ignore m m' k s : m' = cm n m ->
  callback_ignore_transition h m' k s = co n (callback_ignore_transition h m k s).
Proof.
  intros ->. unfold callback_ignore_transition. cbv zeta.
  apply co_if; [reflexivity| |reflexivity]. now apply co_callback.
Qed.

Lemma co_chain m m' tbl k k' : m' = cm n m -> k' = co n k ->
  name_chain h m' tbl k' = co n (name_chain h m tbl k).
Proof.
  intros -> K. induction tbl as [|[[lit name] len] tbl IH]; cbn [name_chain]; [exact K|].
  apply co_starts; [reflexivity| |exact IH]. now apply co_trans_data.
Qed.

Lemma co_slow m : first_header_name_slow (cm n m) = co n (first_header_name_slow m).
Proof. apply co_next; [reflexivity|]. intros. now apply co_if. Qed.

(* Unfold the state function at the head of both sides. *)
Ltac co_unfold :=
  match goal with |- ?f _ _ = co _ (?f _ _) => unfold f | |- ?f _ = co _ (?f _) => unfold f
   | |- ?f _ _ _ = co _ (?f _ _ _) => unfold f | |- ?f _ _ _ _ = co _ (?f _ _ _ _) => unfold f
   | |- ?f _ _ _ _ _ = co _ (?f _ _ _ _ _) => unfold f | |- ?f _ _ _ _ _ _ = co _ (?f _ _ _ _ _ _) => unfold f end.

Ltac co_step :=
  cbv beta zeta;
  match goal with
  | |- (if _ then _ else _) = co _ (if _ then _ else _) => apply co_if
  | |- next_or_eos _ _ = _ => apply co_next; [|intros ? ?]
  | |- next_unchecked _ _ = _ => apply co_unchecked; [|intros ? ?]
  | |- collecting _ _ _ _ = _ => apply co_collecting; [| |intros ?|intros ? ?]
  | |- if_starts_with _ _ _ _ = _ => apply co_starts
  | |- name_chain _ _ _ _ = _ => apply co_chain
  | |- callback_eos _ _ _ = _ => apply co_eos
  | |- callback_ignore_transition _ _ _ _ = _ => apply co_ignore
  | |- callback_transition_slice _ _ _ _ = _ => apply co_trans_slice
  | |- callback_slice _ _ _ _ = _ => apply co_slice; [|intros ?]
  | |- callback_transition_data _ _ _ _ = _ => apply co_trans_data
  | |- callback_data _ _ _ _ = _ => apply co_callback; [|intros ?]
  | |- first_header_name_slow _ = _ => apply co_slow
  | |- transition _ _ = _ => reflexivity
  | |- transition_no_remark _ _ = _ => reflexivity
  | |- remark _ = _ => reflexivity
  | |- fail _ _ = _ => reflexivity
  | |- faulted _ _ = _ => reflexivity
  | |- exit_eos _ = _ => reflexivity
  | |- exit_finished _ = _ => reflexivity
  | |- exit_callback _ = _ => reflexivity
  | |- _ = cm _ _ => reflexivity
  | |- (match ?x with _ => _ end) = co _ (match ?y with _ => _ end) => change x with y; destruct y
  | |- _ => co_unfold
  end.

Lemma run_fn_count m : run_fn h (cm n m) = co n (run_fn h m).
Proof.
  unfold run_fn. change (state_fn (mp (cm n m))) with (state_fn (mp m)).
  destruct (state_fn (mp m)).
  all: repeat co_step.
  all: try reflexivity.
Qed.
End Count.

Lemma parse_count h fuel : forall m c m' r,
  parse fuel h m = (m', r) ->
  exists d, byte_count (mp m') = byte_count (mp m) + d /\
    parse fuel h (cm c m) = (cm (c + d) m', r).
Proof.
  induction fuel as [|fuel IH]; intros m c m' r E; cbn [parse] in *.
  - injection E as <- <-. exists 0. rewrite !N.add_0_r. now split.
  - destruct (run_fn h m) as [m1 o] eqn:R. 
    pose proof (mi_count _ _ _ (wp_run _ _ (run_fn_misc h m) _ _ R)) as MC.
    rewrite (run_fn_count c h m), R. cbn [co fst snd].
    destruct o as [|s|e|f].
    + apply (IH m1 c) in E. now rewrite <- MC.
    + injection E as <- <-. exists (N.of_nat (cindex (mc m1))). rewrite <- MC.
      destruct s; now split.
    + injection E as <- <-. exists (N.of_nat (cindex (mc m1))). rewrite <- MC. now split.
    + injection E as <- <-. exists 0. rewrite MC, !N.add_0_r. now split.
Qed.

Lemma resume_recount h p c log s p' log' r :
  resume h p log s = (p', log', r) ->
  exists d, byte_count p' = byte_count p + d /\
    resume h (recount p c) log s = (recount p' (c + d), log', r).
Proof.
  intros E. unfold resume in *. change (parser_type (recount p c)) with (parser_type p).
  assert (P0 : forall n x m r, parse n h (Mach p (bs_new x) log) = (m, r) ->
     exists d, byte_count (mp m) = byte_count p + d /\
       parse n h (Mach (recount p c) (bs_new x) log) = (cm (c + d) m, r)).
  { intros n x m r0 P. exact (parse_count h n _ c _ _ P). }
  destruct (parser_type p).
  1-3: destruct (parse _ _ _) as [m r0] eqn:P in E; injection E as <- <- <-;
    apply P0 in P; destruct P as (d & D1 & D2); exists d; rewrite D2; now split.
  cbv zeta in *. change (plength (recount p c)) with (plength p).
  destruct (parse _ _ _) as [m r0] eqn:P in E.
  apply P0 in P. destruct P as (d & D1 & ->).
  destruct r0 as [[k|k|k]|e|f|].
  - change (plength (mp (cm (c + d) m))) with (plength (mp m)).
    destruct (_ <? _); injection E as <- <- <-; exists d; now split.
  - change (plength (mp (cm (c + d) m))) with (plength (mp m)).
    destruct (plength (mp m) <? _); [injection E as <- <- <-; exists d; now split|].
    destruct (_ =? 0); [|injection E as <- <- <-; exists d; now split].
    destruct (parse _ h (with_p m _)) as [m2 r2] eqn:P2 in E. injection E as <- <- <-.
    apply parse_count with (c := c + d) in P2. destruct P2 as (d2 & D3 & D4).
    cbn [with_p mp p_set_state byte_count] in D3.
    exists (d + d2). split; [rewrite D3, D1; lia|].
    change (with_p (cm (c + d) m) (p_set_state (mp (cm (c + d) m)) StBodyFinished))
      with (cm (c + d) (with_p m (p_set_state (mp m) StBodyFinished))).
    rewrite D4. now rewrite N.add_assoc.
  - injection E as <- <- <-; exists d; now split.
  - injection E as <- <- <-; exists d; now split.
  - injection E as <- <- <-; exists d; now split.
  - injection E as <- <- <-; exists d; now split.
Qed.

Lemma client_recount h fuel : forall p c log segs p' log' rest o,
  client fuel h p log segs = (p', log', rest, o) ->
  exists d, byte_count p' = byte_count p + d /\
    client fuel h (recount p c) log segs = (recount p' (c + d), log', rest, o).
Proof.
  induction fuel as [|fuel IH]; intros p c log segs p' log' rest o E; cbn [client] in *.
  - destruct segs; injection E as <- <- <- <-; exists 0; rewrite !N.add_0_r; now split.
  - destruct segs as [|seg more]; [injection E as <- <- <- <-; exists 0; rewrite !N.add_0_r; now split|].
    destruct (resume h p log seg) as [[p1 log1] r] eqn:R.
    apply (resume_recount h p c) in R. destruct R as (d & D1 & ->).
    destruct r as [[n|n|n]|e|f|]; try (injection E as <- <- <- <-; exists d; now split).
    + apply (IH p1 (c + d)) in E. destruct E as (d2 & D2 & ->). exists (d + d2).
      rewrite D2, D1, !N.add_assoc. now split.
    + apply (IH p1 (c + d)) in E. destruct E as (d2 & D2 & ->). exists (d + d2).
      rewrite D2, D1, !N.add_assoc. now split.
Qed.

Lemma reset_recount p q : parser_type p = parser_type q -> reset q = recount (reset p) (byte_count q).
Proof. intros T. unfold reset. cbn [parser_type]. rewrite T. destruct (parser_type q); reflexivity. Qed.

Lemma observe_recount h ops : forall b c d p log,
  byte_count p = b + d ->
  observe h b p log ops = observe h c (recount p (c + d)) log ops.
Proof.
  induction ops as [|o ops IH]; intros b c d p log B; cbn [observe]; [reflexivity|].
  assert (K : forall q, byte_count q = b + d -> 
     forall r l, (r, l, state q, byte_count q - b) :: observe h b q l ops =
     (r, l, state q, byte_count (recount q (c + d)) - c) :: observe h c (recount q (c + d)) l ops).
  { intros q Q r l. rewrite (IH b c d q l Q). f_equal. f_equal.
    cbn [byte_count recount]. lia. }
  destruct o; cbn [perform].
  - change (init_chunked (recount p (c + d))) with (recount (init_chunked p) (c + d)). exact (K (init_chunked p) B None log).
  - change (init_head (recount p (c + d))) with (recount (init_head p) (c + d)). exact (K (init_head p) B None log).
  - change (init_multipart (recount p (c + d))) with (recount (init_multipart p) (c + d)). exact (K (init_multipart p) B None log).
  - change (init_url_encoded (recount p (c + d))) with (recount (init_url_encoded p) (c + d)). exact (K (init_url_encoded p) B None log).
  - rewrite (reset_recount p (recount p (c + d))) by reflexivity. refine (K (reset p) _ None log).
    unfold reset. cbn [parser_type]. destruct (parser_type p); exact B.
  - change (set_boundary (recount p (c + d)) b0) with (recount (set_boundary p b0) (c + d)). exact (K (set_boundary p b0) B None log).
  - change (set_length (recount p (c + d)) n) with (recount (set_length p n) (c + d)). exact (K (set_length p n) B None log).
  - destruct (resume h p log s) as [[p1 l1] r] eqn:R.
    apply (resume_recount h p (c + d)) in R. destruct R as (e & E1 & ->).
    assert (B1 : byte_count p1 = b + (d + e)) by (rewrite E1, B; lia).
    rewrite (IH b c (d + e) p1 l1 B1), <- N.add_assoc. cbn [byte_count recount state]. f_equal. f_equal. lia.
Qed.

Lemma reset_count p : byte_count (reset p) = byte_count p.
Proof. unfold reset. cbn [parser_type]. destruct (parser_type p); reflexivity. Qed.

Lemma reset_fresh h p q log ops : parser_type p = parser_type q ->
  observe h (byte_count p) (reset p) log ops = observe h (byte_count q) (reset q) log ops.
Proof.
  intros T. rewrite (reset_recount p q T).
  rewrite (observe_recount h ops _ (byte_count q) 0) by (rewrite reset_count; lia).
  now rewrite N.add_0_r.
Qed.

Lemma init_fresh h p q log ops t : In t [OpInitChunked; OpInitHead; OpInitMultipart; OpInitUrlEncoded] ->
  observe h (byte_count p) p log (t :: ops) = observe h (byte_count q) q log (t :: ops).
Proof.
  intros I.
  assert (K : forall ty, observe h (byte_count p) (reset (with_type p ty)) log ops =
                         observe h (byte_count q) (reset (with_type q ty)) log ops).
  { intros ty. now apply (reset_fresh h (with_type p ty) (with_type q ty)). }
  cbn [observe perform].
  destruct I as [<-|[<-|[<-|[<-|[]]]]]; cbn [perform].
  - unfold init_chunked. rewrite (K Chunked). f_equal. f_equal. cbn. lia.
  - unfold init_head. rewrite (K Head). f_equal. f_equal. cbn. lia.
  - unfold init_multipart. rewrite (K Multipart). f_equal. f_equal. cbn. lia.
  - unfold init_url_encoded. rewrite (K UrlEncoded). f_equal. f_equal. cbn. lia.
Qed.

Lemma reset_fresh_all h p q log ops : parser_type p = parser_type q ->
  byte_count (reset p) = byte_count p /\ state (reset p) = state (reset q) /\
  observe h (byte_count p) (reset p) log ops = observe h (byte_count q) (reset q) log ops.
Proof.
  intros T. split; [apply reset_count|]. split; [|now apply reset_fresh].
  unfold reset. rewrite T. now destruct (parser_type q).
Qed.

Lemma init_fresh_all h p q log ops t : In t [OpInitChunked; OpInitHead; OpInitMultipart; OpInitUrlEncoded] ->
  byte_count (fst (fst (perform h p log t))) = byte_count p /\
  observe h (byte_count p) p log (t :: ops) = observe h (byte_count q) q log (t :: ops).
Proof.
  intros I. split; [|now apply init_fresh]. now destruct I as [<-|[<-|[<-|[<-|[]]]]].
Qed.
