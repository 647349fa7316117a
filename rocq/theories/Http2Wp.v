(* Symbolic execution of the HTTP/2 state functions: one rule per macro of the
   model, and tactics that run a state function down to its exits. *)

From Coq Require Import NArith List Bool Arith String Lia.
From Verif Require Import Bytes ByteStream Http2Model.
Import ListNotations.
Local Open Scope N_scope.

(* Q holds of the machine state and the outcome r. *)
Definition wp (r : mach * outcome) (Q : mach -> outcome -> Prop) : Prop := Q (fst r) (snd r).

Lemma wp_run r Q : wp r Q -> forall m o, r = (m, o) -> Q m o.
Proof. intros H m o ->. exact H. Qed.

Lemma wp_exit_callback p c l (Q : mach -> outcome -> Prop) :
  Q (Mach p c l) (Exit (SCallback (cindex c))) -> wp (exit_callback (Mach p c l)) Q.
Proof. exact (fun H => H). Qed.

Lemma wp_exit_callback_to p c l s (Q : mach -> outcome -> Prop) :
  Q (Mach (p_set_state p s) c l) (Exit (SCallback (cindex c))) ->
  wp (exit_callback_to (Mach p c l) s) Q.
Proof. exact (fun H => H). Qed.

Lemma wp_exit_eos p c l (Q : mach -> outcome -> Prop) :
  Q (Mach p c l) (Exit (SEos (cindex c))) -> wp (exit_eos (Mach p c l)) Q.
Proof. exact (fun H => H). Qed.

Lemma wp_exit_finished p c l (Q : mach -> outcome -> Prop) :
  Q (Mach p c l) (Exit (SFinished (cindex c))) -> wp (exit_finished (Mach p c l)) Q.
Proof. exact (fun H => H). Qed.

Lemma wp_fail m e (Q : mach -> outcome -> Prop) : Q m (Fail e) -> wp (fail m e) Q.
Proof. exact (fun H => H). Qed.

Lemma wp_faulted m f (Q : mach -> outcome -> Prop) : Q m (Faulted f) -> wp (faulted m f) Q.
Proof. exact (fun H => H). Qed.

Lemma wp_remark p cb mk sl r l (Q : mach -> outcome -> Prop) :
  Q (Mach p (Ctx cb (mk + List.length sl) [] r) l) Continue ->
  wp (remark (Mach p (Ctx cb mk sl r) l)) Q.
Proof. exact (fun H => H). Qed.

Lemma wp_transition p cb mk sl r l s (Q : mach -> outcome -> Prop) :
  Q (Mach (p_set_state p s) (Ctx cb (mk + List.length sl) [] r) l) Continue ->
  wp (transition (Mach p (Ctx cb mk sl r) l) s) Q.
Proof. exact (fun H => H). Qed.

Lemma wp_exit_if_eos p cb mk sl r l k (Q : mach -> outcome -> Prop) :
  (r = [] -> Q (Mach p (Ctx cb mk sl []) l) (Exit (SEos (mk + List.length sl)))) ->
  (forall b r', r = b :: r' -> wp (k (Mach p (Ctx cb mk sl (b :: r')) l)) Q) ->
  wp (exit_if_eos (Mach p (Ctx cb mk sl r) l) k) Q.
Proof.
  intros H1 H2. unfold exit_if_eos, bs_available. cbn [mc crest].
  destruct r as [|b r]; cbn [List.length Nat.ltb Nat.leb].
  - now apply H1.
  - now apply (H2 b r).
Qed.

Lemma wp_get_u8 p cb mk sl b r l k (Q : mach -> outcome -> Prop) :
  wp (k (Mach p (Ctx cb mk (sl ++ [b]) r) l) b) Q ->
  wp (get_u8 (Mach p (Ctx cb mk sl (b :: r)) l) k) Q.
Proof. exact (fun H => H). Qed.

Lemma wp_read_u16 p cb mk sl r l v k (Q : mach -> outcome -> Prop) :
  (2 <= List.length r)%nat ->
  (forall b0 b1 r', r = b0 :: b1 :: r' ->
     wp (k (Mach p (Ctx cb mk (sl ++ [b0; b1]) r') l) (N.lor (N.lor v (shl16 b0 8)) b1)) Q) ->
  wp (read_u16 (Mach p (Ctx cb mk sl r) l) v k) Q.
Proof.
  intros L H. destruct r as [|b0 [|b1 r]]; cbn in L; try lia. now apply (H b0 b1 r).
Qed.

Lemma wp_read_u32 p cb mk sl r l v k (Q : mach -> outcome -> Prop) :
  (4 <= List.length r)%nat ->
  (forall b0 b1 b2 b3 r', r = b0 :: b1 :: b2 :: b3 :: r' ->
     wp (k (Mach p (Ctx cb mk (sl ++ [b0; b1; b2; b3]) r') l)
           (N.lor (N.lor (N.lor (N.lor v (shl32 b0 24)) (shl32 b1 16)) (shl32 b2 8)) b3)) Q) ->
  wp (read_u32 (Mach p (Ctx cb mk sl r) l) v k) Q.
Proof.
  intros L H. destruct r as [|b0 [|b1 [|b2 [|b3 r]]]]; cbn in L; try lia.
  now apply (H b0 b1 b2 b3 r).
Qed.

Lemma wp_dec chk p c l n k (Q : mach -> outcome -> Prop) :
  (sub32 chk (N.shiftr (bit_data32a p) 8) n = None ->
     Q (Mach p c l) (Faulted FOverflow)) ->
  (forall v, sub32 chk (N.shiftr (bit_data32a p) 8) n = Some v ->
     wp (k (Mach (p_32a p (N.lor (N.land (bit_data32a p) 255) (shl32 v 8))) c l)) Q) ->
  wp (dec_payload_length chk (Mach p c l) n k) Q.
Proof.
  intros H1 H2. unfold dec_payload_length. cbn [mp].
  destruct (sub32 chk _ n) as [v|]; [now apply H2|now apply H1].
Qed.

Lemma wp_call h p c l e f (Q : mach -> outcome -> Prop) :
  (h l e = true -> wp (f (Mach p c (l ++ [e])) true) Q) ->
  (h l e = false -> wp (f (Mach p c (l ++ [e])) false) Q) ->
  wp (let '(m, ok) := call h (Mach p c l) e in f m ok) Q.
Proof.
  intros H1 H2. unfold call. cbn [mp mc ml]. destruct (h l e); auto.
Qed.

Lemma wp_if (c : bool) a b (Q : mach -> outcome -> Prop) :
  (c = true -> wp a Q) -> (c = false -> wp b Q) -> wp (if c then a else b) Q.
Proof. destruct c; auto. Qed.

Lemma wp_payload chk h p cb mk sl r l k (Q : mach -> outcome -> Prop) :
  (sub32 chk (N.shiftr (bit_data32a p) 8) (N.land (bit_data32a p) 255) = None ->
     Q (Mach p (Ctx cb mk sl r) l) (Faulted FOverflow)) ->
  (forall n v x r', sub32 chk (N.shiftr (bit_data32a p) 8) (N.land (bit_data32a p) 255) = Some n ->
     r = x ++ r' -> n = N.of_nat (List.length x) ->
     sub32 chk (N.shiftr (bit_data32a p) 8) n = Some v ->
     let p1 := p_32a p (N.lor (N.land (bit_data32a p) 255) (shl32 v 8)) in
     let p2 := p_set_state p1 (if 0 <? N.land (bit_data32a p1) 255 then StFramePadding
                               else StFrameLength1) in
     (h l (EData k (sl ++ x) true) = true ->
      Q (Mach p2 (Ctx cb (mk + List.length (sl ++ x)) [] r') (l ++ [EData k (sl ++ x) true]))
        Continue) /\
     (h l (EData k (sl ++ x) true) = false ->
      Q (Mach p2 (Ctx cb mk (sl ++ x) r') (l ++ [EData k (sl ++ x) true]))
        (Exit (SCallback (mk + List.length (sl ++ x)))))) ->
  (forall n x r', sub32 chk (N.shiftr (bit_data32a p) 8) (N.land (bit_data32a p) 255) = Some n ->
     r = x ++ r' -> n = N.of_nat (List.length x) ->
     sub32 chk (N.shiftr (bit_data32a p) 8) n = None ->
     Q (Mach p (Ctx cb mk (sl ++ x) r') l) (Faulted FOverflow)) ->
  (forall n, sub32 chk (N.shiftr (bit_data32a p) 8) (N.land (bit_data32a p) 255) = Some n ->
     N.of_nat (List.length r) < n ->
     sub32 chk (N.shiftr (bit_data32a p) 8) (u32 (N.of_nat (List.length r))) = None ->
     Q (Mach p (Ctx cb mk sl r) l) (Faulted FOverflow)) ->
  (forall n v, sub32 chk (N.shiftr (bit_data32a p) 8) (N.land (bit_data32a p) 255) = Some n ->
     N.of_nat (List.length r) < n ->
     sub32 chk (N.shiftr (bit_data32a p) 8) (u32 (N.of_nat (List.length r))) = Some v ->
     let p1 := p_32a p (N.lor (N.land (bit_data32a p) 255) (shl32 v 8)) in
     (h l (EData k (sl ++ r) false) = true ->
      Q (Mach p1 (Ctx cb mk (sl ++ r) []) (l ++ [EData k (sl ++ r) false]))
        (Exit (SEos (mk + List.length (sl ++ r))))) /\
     (h l (EData k (sl ++ r) false) = false ->
      Q (Mach p1 (Ctx cb mk (sl ++ r) []) (l ++ [EData k (sl ++ r) false]))
        (Exit (SCallback (mk + List.length (sl ++ r)))))) ->
  wp (parse_payload_data chk h (Mach p (Ctx cb mk sl r) l) k) Q.
Proof.
  intros H1 H2 H3 H4 H5. unfold parse_payload_data, actual_length, payload_length, pad_length.
  cbn [mp]. destruct (sub32 chk _ (N.land _ 255)) as [n|] eqn:E; [|now apply H1].
  unfold bs_available. cbn [mc crest].
  destruct (n <=? N.of_nat (List.length r)) eqn:L.
  - apply N.leb_le in L.
    unfold with_c, bs_jump. cbn [mp mc ml crest cslice cmark cbyte].
    assert (r = firstn (N.to_nat n) r ++ skipn (N.to_nat n) r) as R by (symmetry; apply firstn_skipn).
    assert (n = N.of_nat (List.length (firstn (N.to_nat n) r))) as R2.
    { rewrite firstn_length, Nat.min_l by lia. lia. }
    apply wp_dec.
    + intros N. now apply (H3 n).
    + intros v V. cbv zeta. unfold set_state, with_p, call. cbn [mp mc ml bit_data32a p_32a].
      destruct (H2 n v _ _ eq_refl R R2 V) as [Y Z].
      revert Y Z. cbv zeta. cbn [bit_data32a p_32a].
      destruct (0 <? _); cbn [mp mc ml bs_slice cslice]; intros Y Z;
        (apply wp_if; [exact Y|exact Z]).
  - apply N.leb_gt in L. apply wp_dec.
    + intros N. now apply (H4 n).
    + intros v V. cbv zeta. unfold with_c, bs_jump, call.
      cbn [mp mc ml crest cslice cmark cbyte].
      rewrite firstn_all, skipn_all. cbn [bs_slice cslice].
      destruct (H5 n v eq_refl L V) as [Y Z].
      apply wp_if; [exact Y|exact Z].
Qed.

Lemma wp_go_away_callback chk h p cb mk sl r l (Q : mach -> outcome -> Prop) :
  (sub32 chk (N.shiftr (bit_data32a p) 8) 8 = None ->
     Q (Mach p (Ctx cb mk sl r) l) (Faulted FOverflow)) ->
  (forall v, sub32 chk (N.shiftr (bit_data32a p) 8) 8 = Some v ->
     let p1 := p_32a p (N.lor (N.land (bit_data32a p) 255) (shl32 v 8)) in
     let p2 := p_set_state p1 (if 0 <? N.shiftr (bit_data32a p1) 8 then StGoAwayDebugData
                               else StFrameLength1) in
     let e := EGoAway (N.land (bit_data32b p) 2147483647)
                      (N.lor (shl32 (bit_data16a p) 16) (bit_data16b p)) in
     (h l e = true ->
      Q (Mach p2 (Ctx cb (mk + List.length sl) [] r) (l ++ [e])) Continue) /\
     (h l e = false ->
      Q (Mach p2 (Ctx cb mk sl r) (l ++ [e])) (Exit (SCallback (mk + List.length sl))))) ->
  wp (go_away_callback chk h (Mach p (Ctx cb mk sl r) l)) Q.
Proof.
  intros H1 H2. unfold go_away_callback. apply wp_dec; [exact H1|].
  intros v V. destruct (H2 v V) as [Y Z]. revert Y Z. cbv zeta.
  unfold payload_length, set_state, with_p. cbn [mp mc ml bit_data32a p_32a].
  destruct (0 <? _); cbn [mp bit_data32b bit_data16a bit_data16b p_set_state p_32a];
    intros Y Z; unfold call; cbn [mp mc ml]; (apply wp_if; [exact Y|exact Z]).
Qed.

Lemma wp_padding chk p cb mk sl r l (Q : mach -> outcome -> Prop) :
  (r = [] -> Q (Mach p (Ctx cb mk sl []) l) (Exit (SEos (mk + List.length sl)))) ->
  (forall x r', r = x ++ r' -> r <> [] ->
     N.shiftr (bit_data32a p) 8 = N.of_nat (List.length x) ->
     Q (Mach (p_set_state p StFrameLength1) (Ctx cb (mk + List.length (sl ++ x)) [] r') l)
       Continue) ->
  (N.of_nat (List.length r) < N.shiftr (bit_data32a p) 8 -> r <> [] ->
     sub32 chk (N.shiftr (bit_data32a p) 8) (u32 (N.of_nat (List.length r))) = None ->
     Q (Mach p (Ctx cb mk sl r) l) (Faulted FOverflow)) ->
  (forall v, N.of_nat (List.length r) < N.shiftr (bit_data32a p) 8 -> r <> [] ->
     sub32 chk (N.shiftr (bit_data32a p) 8) (u32 (N.of_nat (List.length r))) = Some v ->
     Q (Mach (p_32a p (N.lor (N.land (bit_data32a p) 255) (shl32 v 8))) (Ctx cb mk (sl ++ r) []) l)
       (Exit (SEos (mk + List.length (sl ++ r))))) ->
  wp (frame_padding chk (Mach p (Ctx cb mk sl r) l)) Q.
Proof.
  intros H1 H2 H3 H4. unfold frame_padding. apply wp_exit_if_eos; [exact H1|].
  intros b r' E. rewrite <- E. assert (r <> []) as NE by (rewrite E; discriminate).
  unfold payload_length, bs_available. cbn [mp mc crest].
  destruct (_ <=? _) eqn:L.
  - apply N.leb_le in L. unfold with_c, bs_jump. cbn [mp mc ml crest cslice cmark cbyte].
    apply wp_transition, H2; [now rewrite firstn_skipn|exact NE|].
    rewrite firstn_length, Nat.min_l by lia. lia.
  - apply N.leb_gt in L. apply wp_dec.
    + intros N. now apply H3.
    + intros v V. unfold with_c, bs_jump. cbn [mp mc ml crest cslice cmark cbyte].
      rewrite firstn_all, skipn_all. apply wp_exit_eos. now apply H4.
Qed.

(* ------------------------------------------------------------------ *)
(* Tactics                                                              *)
(* ------------------------------------------------------------------ *)

(* Unfold the definitions a state function is written with. *)
Ltac unfold_state :=
  cbv beta delta [
    frame_length1 frame_length2 frame_length3 frame_type frame_flags frame_stream_id1
    frame_stream_id2 frame_stream_id3 frame_stream_id4 frame_format_end
    data_pad_length data_data go_away_stream_id1 go_away_stream_id2 go_away_stream_id3
    go_away_stream_id4 go_away_error_code1 go_away_error_code2 go_away_error_code3
    go_away_error_code4 go_away_debug_data headers_pad_length_with_priority
    headers_pad_length_without_priority headers_stream_id1 headers_stream_id2
    headers_stream_id3 headers_stream_id4 headers_weight headers_callback headers_fragment
    ping_data priority_stream_id1 priority_stream_id2 priority_stream_id3 priority_stream_id4
    priority_weight push_promise_pad_length push_promise_stream_id1 push_promise_stream_id2
    push_promise_stream_id3 push_promise_stream_id4 push_promise_callback
    rst_stream_error_code1 rst_stream_error_code2 rst_stream_error_code3
    rst_stream_error_code4 rst_stream_callback settings_id1 settings_id2 settings_value1
    settings_value2 settings_value3 settings_value4 settings_callback
    window_update_increment1 window_update_increment2 window_update_increment3
    window_update_increment4 window_update_callback unsupported_pad_length unsupported_data
    dead finished clear_header
    set_state set32a set32b set16a set16b or32a or32b or16a or16b with_c with_p bs_available
    payload_length pad_length
  ]; cbn [mp mc ml crest cbyte cmark cslice]; cbv beta zeta.

(* Case of a cons or nil stream. *)
Ltac eqr E :=
  first [ discriminate E
        | match type of E with ?x = _ => is_var x; subst x end
        | injection E; clear E; intros; subst ].

Ltac boolP :=
  repeat match goal with
  | H : (_ && _) = true |- _ => apply andb_true_iff in H; destruct H
  | H : (_ =? _)%nat = true |- _ => apply Nat.eqb_eq in H
  | H : (_ =? _)%nat = false |- _ => apply Nat.eqb_neq in H
  | H : (_ <=? _)%nat = true |- _ => apply Nat.leb_le in H
  | H : (_ <=? _)%nat = false |- _ => apply Nat.leb_gt in H
  | H : (_ <? _)%nat = true |- _ => apply Nat.ltb_lt in H
  | H : (_ <? _)%nat = false |- _ => apply Nat.ltb_ge in H
  | H : (_ <=? _) = true |- _ => apply N.leb_le in H
  | H : (_ <=? _) = false |- _ => apply N.leb_gt in H
  | H : (_ <? _) = true |- _ => apply N.ltb_lt in H
  | H : (_ <? _) = false |- _ => apply N.ltb_ge in H
  end.

(* Enough bytes for a two or four byte read. *)
Ltac bytes_left := boolP; cbn [List.length] in *; lia.

(* One step of symbolic execution; the head of the goal is wp _ _. *)
Ltac wp_step :=
  match goal with
  | |- wp (let '(m, ok) := call _ _ _ in _) _ =>
      apply (wp_call _ _ _ _ _ (fun m ok => _)); intro
  | |- wp (if _ then _ else _) _ => apply wp_if; intro
  | |- wp (exit_if_eos _ _) _ =>
      apply wp_exit_if_eos; [let E := fresh "E" in intros E; eqr E
                            |let E := fresh "E" in intros ? ? E; eqr E]
  | |- wp (get_u8 _ _) _ => apply wp_get_u8
  | |- wp (read_u16 _ _ _) _ =>
      apply wp_read_u16; [bytes_left|let E := fresh "E" in intros ? ? ? E; eqr E]
  | |- wp (read_u32 _ _ _) _ =>
      apply wp_read_u32; [bytes_left|let E := fresh "E" in intros ? ? ? ? ? E; eqr E]
  | |- wp (dec_payload_length _ _ _ _) _ => apply wp_dec; [intro|intros ? ?]
  | |- wp (parse_payload_data _ _ _ _) _ =>
      apply wp_payload;
        [intro|intros ? ? ? ? ? ? ? ?; split; intro|intros ? ? ? ? ? ? ?|intros ? ? ? ?
        |intros ? ? ? ? ?; split; intro]
  | |- wp (go_away_callback _ _ _) _ =>
      apply wp_go_away_callback; [intro|intros ? ?; split; intro]
  | |- wp (frame_padding _ _) _ =>
      apply wp_padding; [let E := fresh "E" in intros E; eqr E|intros ? ? ? ? ?|intros ? ? ?|intros ? ? ? ?]
  | |- wp (transition _ _) _ => apply wp_transition
  | |- wp (remark _) _ => apply wp_remark
  | |- wp (exit_callback _) _ => apply wp_exit_callback
  | |- wp (exit_callback_to _ _) _ => apply wp_exit_callback_to
  | |- wp (exit_eos _) _ => apply wp_exit_eos
  | |- wp (exit_finished _) _ => apply wp_exit_finished
  | |- wp (fail _ _) _ => apply wp_fail
  | |- wp (faulted _ _) _ => apply wp_faulted
  end.

(* Run to the leaves. *)
Ltac wp_all := repeat (wp_step; unfold_state).
