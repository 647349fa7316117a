(* Which bytes the data callbacks are given: proofs. *)

From Coq Require Import NArith List Bool Arith String Lia ZifyBool.
From Verif Require Import Bytes ByteStream Http1Model Http1Base Http1Wp Http1Term Http1Spec
     Http1Protocol Http1Sem Http1Sim Http1Misc.
Import ListNotations.
Local Open Scope N_scope.

(* ------------------------------------------------------------------ *)
(* The lookup tables                                                    *)
(* ------------------------------------------------------------------ *)

Lemma lookup_forall t (P : byte -> bool) :
  forallb (fun i => match lookup t (N.of_nat i) with Some true => P (N.of_nat i) | _ => true end)
          (seq 0 (List.length t)) = true ->
  forall b, lookup t b = Some true -> P b = true.
Proof.
  intros H b E. rewrite forallb_forall in H. specialize (H (N.to_nat b)).
  rewrite N2Nat.id, E in H. apply H. apply in_seq. split; [lia|].
  cbn [Nat.add]. apply nth_error_Some. unfold lookup in E. congruence.
Qed.

Lemma token_tchar b : is_token b = Some true -> tchar b = true.
Proof. apply lookup_forall. vm_compute. reflexivity. Qed.

Lemma field_text b : is_header_field b = Some true -> text_byte b = true.
Proof. apply lookup_forall. vm_compute. reflexivity. Qed.

Lemma quoted_text b : is_quoted_header_field b = Some true -> text_byte b = true.
Proof. apply lookup_forall. vm_compute. reflexivity. Qed.

Lemma lower_upper b : is_upper b = true -> lower_tchar (b + 32) = true.
Proof.
  unfold is_upper. intros H. boolP.
  assert (E : b = 65 \/ b = 66 \/ b = 67 \/ b = 68 \/ b = 69 \/ b = 70 \/ b = 71 \/ b = 72 \/
    b = 73 \/ b = 74 \/ b = 75 \/ b = 76 \/ b = 77 \/ b = 78 \/ b = 79 \/ b = 80 \/ b = 81 \/
    b = 82 \/ b = 83 \/ b = 84 \/ b = 85 \/ b = 86 \/ b = 87 \/ b = 88 \/ b = 89 \/ b = 90) by lia.
  repeat destruct E as [->|E]; try reflexivity. now subst.
Qed.

Lemma names_lower : forallb (fun '(_, name, _) => negb (beq name []) && forallb lower_tchar name) all_names = true.
Proof. vm_compute. reflexivity. Qed.

Lemma name_lower lit name len :
  In (lit, name, len) all_names -> name <> [] /\ Forall (fun b => lower_tchar b = true) name.
Proof.
  intros H. pose proof names_lower as A. rewrite forallb_forall in A. apply A in H.
  apply andb_true_iff in H. destruct H as [H1 H2]. split.
  - intros ->. discriminate.
  - rewrite forallb_forall in H2. now apply Forall_forall.
Qed.

(* ------------------------------------------------------------------ *)
(* One step                                                             *)
(* ------------------------------------------------------------------ *)

(* The collected bytes may be reported. *)
Definition slice_ok (s : pstate) (sl : list byte) : Prop :=
  match pkind s with
  | Some k => Forall (fun b => ok_data k b = true) sl
  | None => sl = []
  end.

Definition data_post (m m' : mach) (o : outcome) : Prop :=
  (exists x, ml m' = ml m ++ x /\ Forall ok_event x) /\
  (o = Continue -> slice_ok (state_fn (mp m')) (cslice (mc m'))).

Lemma data_none m p c o : (o = Continue -> slice_ok (state_fn p) (cslice c)) ->
  data_post m (Mach p c (ml m)) o.
Proof. intros H. split; [|exact H]. exists []. split; [now rewrite app_nil_r|constructor]. Qed.

Lemma data_one m p c e o : ok_event e -> (o = Continue -> slice_ok (state_fn p) (cslice c)) ->
  data_post m (Mach p c (ml m ++ [e])) o.
Proof. intros H1 H. split; [|exact H]. exists [e]. split; [reflexivity|]. now constructor. Qed.

Lemma ok_any k d : match k with KChunkData | KMultipartData | KUrlName | KUrlValue => True | _ => False end ->
  Forall (fun b => ok_data k b = true) d.
Proof. intros H. apply Forall_forall. intros b _. now destruct k. Qed.

Ltac clear_big :=
  repeat match goal with
  | H : (List.length _ <= List.length _)%nat |- _ => clear H
  | H : forall r, _ <> _ |- _ => clear H
  end.

Lemma stop_none (c : bool) : Some (negb c || false) = Some false -> c = true.
Proof. now destruct c. Qed.

Lemma stop_token stop b : stop_table is_token stop b = Some false -> tchar b = true /\ stop b = false.
Proof.
  unfold stop_table. destruct (is_token b) as [[]|] eqn:E; cbn; try discriminate.
  intros [= ->]. split; [now apply token_tchar|reflexivity].
Qed.

Lemma stop_field stop b : stop_table is_header_field stop b = Some false -> text_byte b = true.
Proof.
  unfold stop_table. destruct (is_header_field b) as [[]|] eqn:E; cbn; try discriminate.
  intros _. now apply field_text.
Qed.

Lemma stop_quoted stop b : stop_table is_quoted_header_field stop b = Some false -> text_byte b = true.
Proof.
  unfold stop_table. destruct (is_quoted_header_field b) as [[]|] eqn:E; cbn; try discriminate.
  intros _. now apply quoted_text.
Qed.

Ltac ok_byte :=
  cbn [ok_data]; unfold byte in *;
  repeat match goal with
  | H : Some _ = Some _ |- _ => injection H as H
  | H : is_upper _ = _ |- _ => unfold is_upper in H
  | H : is_visible_7bit _ = _ |- _ => unfold is_visible_7bit in H
  | H : is_status_byte _ = _ |- _ => unfold is_status_byte in H
  | H : is_escapable _ = _ |- _ => unfold is_escapable in H
  | H : negb (is_visible_7bit _) = _ |- _ => unfold is_visible_7bit in H
  | H : stop_table is_token _ _ = _ |- _ => apply stop_token in H; destruct H
  | H : stop_table is_header_field _ _ = _ |- _ => apply stop_field in H
  | H : stop_table is_quoted_header_field _ _ = _ |- _ => apply stop_quoted in H
  end;
  try (apply lower_upper; assumption); try assumption;
  unfold lower_tchar, text_byte, is_visible_7bit, is_status_byte, is_upper in *; lia.

Ltac ok_tac :=
  try (apply ok_any; exact I);
  repeat (apply Forall_app; split); try assumption;
  try (constructor; fail);
  match goal with
  | H : Forall _ ?x |- Forall _ ?x => apply (Forall_impl _) with (2 := H); intros; ok_byte
  | |- _ => repeat (apply Forall_cons); try apply Forall_nil; ok_byte
  end.

Lemma run_fn_data h m :
  slice_ok (state_fn (mp m)) (cslice (mc m)) -> wp (run_fn h m) (data_post m).
Proof.
  destruct m as [p [cb mk sl r] l]. unfold run_fn. cbn [mp mc cslice].
  destruct (state_fn p) eqn:Efn; cbv beta delta [slice_ok pkind]; cbv iota beta; intros S.
  all: unfold_state; lits.
  all: try subst sl.
  all: wp_all.
  all: first [ apply (data_one (Mach _ _ l)) | apply (data_none (Mach _ _ l)) ].
  all: try (intros X; discriminate X).
  all: try exact I.
  all: try (intros _; cbv beta delta [slice_ok pkind]; cbn [cslice state_fn p_set_state]; reflexivity).
  all: cbv beta delta [slice_ok pkind ok_event]; cbn [cslice state_fn p_set_state].
  all: try (match goal with H : In _ all_names |- _ => exact (name_lower _ _ _ H) end).
  all: try (split; [first [assumption|discriminate]|]).
  all: try (intros _).
  all: try assumption.
  all: clear_big; try solve [ok_tac].
  - now destruct (parser_type p).
  - now destruct (b =? 13).
Qed.

(* ------------------------------------------------------------------ *)
(* The loop, one resume call, a whole conversation                      *)
(* ------------------------------------------------------------------ *)

Lemma parse_data h fuel : forall m m' r,
  slice_ok (state_fn (mp m)) (cslice (mc m)) ->
  parse fuel h m = (m', r) -> exists x, ml m' = ml m ++ x /\ Forall ok_event x.
Proof.
  induction fuel as [|fuel IH]; intros m m' r S E; cbn [parse] in E.
  - injection E as <- _. exists []. split; [now rewrite app_nil_r|constructor].
  - destruct (run_fn h m) as [m1 o] eqn:R.
    destruct (wp_run _ _ (run_fn_data h m S) _ _ R) as [(x & X1 & X2) C].
    destruct o as [|s|e|f]; try (injection E as <- _; exists x; now split).
    apply IH in E; [|now apply C]. destruct E as (y & Y1 & Y2).
    exists (x ++ y). split; [now rewrite Y1, X1, app_assoc|]. now apply Forall_app.
Qed.

Lemma slice_ok_nil s : slice_ok s [].
Proof. unfold slice_ok. destruct (pkind s); [constructor|reflexivity]. Qed.

Lemma resume_data h p log s p' log' r :
  resume h p log s = (p', log', r) -> exists x, log' = log ++ x /\ Forall ok_event x.
Proof.
  intros E. unfold resume in E.
  assert (D : forall n c m r, parse n h (Mach p (bs_new c) log) = (m, r) ->
              exists x, ml m = log ++ x /\ Forall ok_event x).
  { intros n c m r0 P. apply parse_data in P; [exact P|apply slice_ok_nil]. }
  destruct (parser_type p).
  1-3: destruct (parse _ _ _) as [m r0] eqn:P; injection E as <- <- <-; exact (D _ _ _ _ P).
  cbv zeta in E. destruct (parse _ _ _) as [m r0] eqn:P in E. apply D in P.
  destruct r0 as [[n|n|n]|e|f|].
  - destruct (_ <? _); injection E as <- <- <-; exact P.
  - destruct (_ <? _); [injection E as <- <- <-; exact P|].
    destruct (_ =? 0); [|injection E as <- <- <-; exact P].
    destruct (parse _ h (with_p _ _)) as [m2 r2] eqn:P2 in E. injection E as <- <- <-.
    assert (Q : ml m2 = ml m ++ [EBodyFinished]).
    { revert P2. unfold fuel_of. set (k := if _ <? _ then _ else _). clearbody k.
      replace (8 * List.length k + 16)%nat with (Datatypes.S (Datatypes.S (8 * List.length k + 14))) by lia.
      cbn [parse]. unfold run_fn at 1. cbn [with_p mp p_set_state state_fn].
      unfold body_finished, callback_transition_data, callback_data, call. cbn [set_state mp mc ml with_p].
      destruct (h_ret _ _ _); cbn; intros [= <- <-]; reflexivity. }
    destruct P as (x & P1 & P2'). exists (x ++ [EBodyFinished]).
    rewrite Q, P1, app_assoc. split; [reflexivity|]. apply Forall_app. split; [assumption|].
    repeat constructor.
  - injection E as <- <- <-; exact P.
  - injection E as <- <- <-; exact P.
  - injection E as <- <- <-; exact P.
  - injection E as <- <- <-; exact P.
Qed.

Lemma client_data h fuel : forall p log segs p' log' rest o,
  client fuel h p log segs = (p', log', rest, o) -> exists x, log' = log ++ x /\ Forall ok_event x.
Proof.
  assert (Z : forall log : list event, exists x, log = log ++ x /\ Forall ok_event x).
  { intros log. exists []. split; [now rewrite app_nil_r|constructor]. }
  induction fuel as [|fuel IH]; intros p log segs p' log' rest o E; cbn [client] in E.
  - destruct segs; injection E as <- <- <- <-; apply Z.
  - destruct segs as [|seg more]; [injection E as <- <- <- <-; apply Z|].
    destruct (resume h p log seg) as [[p1 log1] r] eqn:R.
    apply resume_data in R. destruct R as (x & -> & X).
    destruct r as [[n|n|n]|e|f|];
      try (injection E as <- <- <- <-; exists x; now split);
      apply IH in E; destruct E as (y & -> & Y); exists (x ++ y);
      (split; [now rewrite app_assoc|now apply Forall_app]).
Qed.

(* ------------------------------------------------------------------ *)
(* Statements                                                           *)
(* ------------------------------------------------------------------ *)

Lemma resume_calls h p log s p' log' r (P : dkind -> byte -> Prop) (Q : dkind -> Prop) :
  (forall k b, Q k -> ok_data k b = true -> P k b) ->
  resume h p log s = (p', log', r) ->
  exists calls, log' = log ++ calls /\
    forall k d, In (EData k d) calls -> Q k -> d <> [] /\ Forall (P k) d.
Proof.
  intros H E. apply resume_data in E. destruct E as (x & -> & X). exists x. split; [reflexivity|].
  intros k d I K. rewrite Forall_forall in X. apply X in I. destruct I as [N F]. split; [exact N|].
  eapply Forall_impl; [|exact F]. intros b. now apply H.
Qed.

Lemma header_names h p log s p' log' r :
  resume h p log s = (p', log', r) ->
  exists calls, log' = log ++ calls /\
    forall k d, In (EData k d) calls -> k = KHeaderName \/ k = KChunkExtName ->
      d <> [] /\ Forall (fun b => tchar b = true /\ (b < 65 \/ 90 < b)) d.
Proof.
  apply (resume_calls _ _ _ _ _ _ _ (fun _ b => tchar b = true /\ (b < 65 \/ 90 < b))).
  intros k b [-> | ->]; cbn [ok_data]; unfold lower_tchar; intros H;
    apply andb_true_iff in H; destruct H as [H1 H2]; split; auto; unfold byte in *; lia.
Qed.

Lemma header_values h p log s p' log' r :
  resume h p log s = (p', log', r) ->
  exists calls, log' = log ++ calls /\
    forall k d, In (EData k d) calls -> k = KHeaderValue \/ k = KChunkExtValue ->
      d <> [] /\ Forall (fun b => b = 9 \/ (32 <= b /\ b <> 127)) d.
Proof.
  apply (resume_calls _ _ _ _ _ _ _ (fun _ b => b = 9 \/ (32 <= b /\ b <> 127))).
  intros k b [-> | ->]; cbn [ok_data]; unfold text_byte; intros H; unfold byte in *; lia.
Qed.

Lemma first_line_bytes h p log s p' log' r :
  resume h p log s = (p', log', r) ->
  exists calls, log' = log ++ calls /\
    forall k d, In (EData k d) calls ->
      d <> [] /\
      (k = KMethod -> Forall (fun b => 65 <= b <= 90) d) /\
      (k = KUrl -> Forall (fun b => 33 <= b <= 126) d) /\
      (k = KStatus -> Forall (fun b => 32 <= b /\ b <> 127) d).
Proof.
  intros E. apply resume_data in E. destruct E as (x & -> & X). exists x. split; [reflexivity|].
  intros k d I. rewrite Forall_forall in X. apply X in I. destruct I as [N F]. split; [exact N|].
  repeat split; intros ->; (eapply Forall_impl; [|exact F]); intros b; cbn [ok_data];
    unfold byte in *; lia.
Qed.
