(* Facts about every state function: what is left unchanged, how the position
   in the stream moves, how the history of calls grows. *)

From Coq Require Import NArith List Bool Arith String Lia.
From Verif Require Import Bytes ByteStream Http1Model Http1Base Http1Wp Http1Term Http1Spec Http1Sem Http1Sim.
Import ListNotations.
Local Open Scope N_scope.

(* r' is what remains of r after dropping some bytes. *)
Definition suf (r r' : list byte) : Prop := exists x, r = x ++ r'.

Lemma suf_refl r : suf r r. Proof. now exists []. Qed.
Lemma suf_cons b r r' : suf r r' -> suf (b :: r) r'.
Proof. intros [x ->]. now exists (b :: x). Qed.
Lemma suf_app x r r' : suf r r' -> suf (x ++ r) r'.
Proof. intros [y ->]. exists (x ++ y). now rewrite app_assoc. Qed.
Lemma suf_skipn n r : suf r (skipn n r).
Proof. exists (firstn n r). symmetry. apply firstn_skipn. Qed.
Lemma suf_nil r : suf r [].
Proof. exists r. now rewrite app_nil_r. Qed.
Lemma suf_trans a b c : suf a b -> suf b c -> suf a c.
Proof. intros [x ->] [y ->]. exists (x ++ y). now rewrite app_assoc. Qed.

Lemma pre_refl {X} (l : list X) : pre l l. Proof. exists []. now rewrite app_nil_r. Qed.
Lemma pre_app {X} (l x : list X) : pre l (l ++ x). Proof. now exists x. Qed.
Lemma pre_trans {X} (a b c : list X) : pre a b -> pre b c -> pre a c.
Proof. intros [x ->] [y ->]. exists (x ++ y). now rewrite app_assoc. Qed.

Record misc_post (m m' : mach) (o : outcome) : Prop := {
  mi_state : state (mp m) = state_fn (mp m) -> state (mp m') = state_fn (mp m');
  mi_count : byte_count (mp m') = byte_count (mp m);
  mi_type : parser_type (mp m') = parser_type (mp m);
  mi_bd : boundary (mp m') = boundary (mp m);
  mi_len : parser_type (mp m) = UrlEncoded ->
           vstate UrlEncoded (state_fn (mp m)) = true -> plength (mp m') = plength (mp m);
  mi_suf : suf (crest (mc m)) (crest (mc m'));
  mi_pos : (cindex (mc m') + List.length (crest (mc m')) =
            cindex (mc m) + List.length (crest (mc m)))%nat;
  mi_log : pre (ml m) (ml m');
  mi_eos : forall n, o = Exit (SEos n) -> needs_byte (state_fn (mp m')) = true
}.

Ltac suf_tac :=
  repeat first [ apply suf_refl | apply suf_nil | apply suf_skipn | apply suf_cons | apply suf_app ].

Lemma run_fn_misc h m : wp (run_fn h m) (misc_post m).
Proof.
  destruct m as [p [cb mk sl r] l]. unfold run_fn. cbn [mp].
  destruct (state_fn p) eqn:Efn; unfold_state; lits.
  all: wp_all.
  all: constructor; cbn [mp mc ml crest cslice cmark state state_fn p_set_state set_lower14 set_upper14
     with_bits with_length cindex byte_count parser_type boundary plength vstate]; rewrite ?Efn.
  all: try reflexivity; try (intros; assumption).
  all: try (apply pre_refl); try (rewrite <- ?app_assoc; apply pre_app).
  all: try solve [suf_tac].
  all: try (intros; discriminate).
  all: unfold cindex, byte in *; cbn [cmark cslice]; rewrite ?app_length, ?skipn_length, ?firstn_length;
    cbn [List.length skipn] in *; try lia.
  all: boolP; try lia.
  all: match goal with H : firstn _ _ = [] |- _ =>
         apply (f_equal (@List.length _)) in H; rewrite firstn_length in H; cbn [List.length] in H; lia end.
Qed.

(* ------------------------------------------------------------------ *)
(* Detection                                                            *)
(* ------------------------------------------------------------------ *)

(* Condition on the whole of the remaining input in the detection states. *)
Definition sdok (s : pstate) (r : list byte) : bool :=
  match s with
  | StStripDetect => hok (strip r)
  | StDetect1 => hok r
  | StDetect2 => cmpb r (bs "TTP/")
  | StDetect3 => cmpb r (bs "TP/")
  | StDetect4 => cmpb r (bs "P/")
  | StDetect5 => cmpb r (bs "/")
  | _ => true
  end.

Definition detecting (s : pstate) : bool :=
  match s with
  | StStripDetect | StDetect1 | StDetect2 | StDetect3 | StDetect4 | StDetect5 => true
  | _ => false
  end.

Lemma cmpb_app a : forall t b, cmpb (a ++ t) b = true -> cmpb a b = true.
Proof.
  induction a as [|x a IH]; intros t [|y b]; cbn; auto.
  intros H. apply andb_true_iff in H. destruct H as [-> H]. cbn. eauto.
Qed.

Lemma hok_app r t : hok (r ++ t) = true -> hok r = true.
Proof.
  destruct r as [|b r]; [reflexivity|]. cbn [app hok]. destruct (b =? 72); [|reflexivity].
  apply cmpb_app.
Qed.

Lemma hok_strip r t : hok (strip (r ++ t)) = true -> hok (strip r) = true.
Proof.
  induction r as [|b r IH]; [reflexivity|]. cbn [app strip].
  destruct (_ || _); [exact IH|]. apply (hok_app (b :: r)).
Qed.

Lemma hok_dok1 r : hok r = true -> dok1 r.
Proof.
  destruct r as [|b r]; [intros _; exact I|]. unfold hok. destruct (N.eqb_spec b 72) as [->|N].
  - intros H. right. exact H.
  - intros _. unfold dok1. destruct b as [|p]; [exact I|].
    do 7 (destruct p as [p|p|]; try exact I); congruence.
Qed.


Lemma sdok_dok s r t :
  sdok s (r ++ t) = true -> (s = StDetect1 -> r <> []) -> dok s r.
Proof.
  destruct s; cbn [sdok dok]; intros H N; try exact I; try (now apply cmpb_app in H).
  - apply hok_dok1. now apply hok_strip in H.
  - split; [now apply N|]. apply hok_dok1. now apply hok_app in H.
Qed.

(* Condition on a segment r and the input t after it: as before, or enough of
   the message is visible. *)
Definition ready (s : pstate) (r t : list byte) : Prop :=
  sdok s (r ++ t) = true \/
  (s = StStripDetect /\ (9 <= List.length (strip r))%nat) \/
  (s = StDetect1 /\ (9 <= List.length r)%nat).

Lemma len_dok1 r : (9 <= List.length r)%nat -> dok1 r.
Proof.
  intros H. destruct r as [|b r]; [exact I|].
  unfold dok1. destruct b as [|p]; [exact I|].
  do 7 (destruct p as [p|p|]; try exact I).
  left. cbn [List.length] in H. apply Nat.succ_le_mono. exact H.
Qed.

Lemma ready_dok s r t : ready s r t -> (s = StDetect1 -> r <> []) -> dok s r.
Proof.
  intros [H|[[-> H]|[-> H]]] N.
  - now apply (sdok_dok _ _ t).
  - now apply len_dok1.
  - split; [now apply N|now apply len_dok1].
Qed.

(* The condition is kept; only detection states lead to detection states. *)
Definition sdok_post (t : list byte) (m' : mach) (o : outcome) : Prop :=
  match o with
  | Fail _ | Faulted _ => True
  | Exit _ => sdok (state_fn (mp m')) (crest (mc m') ++ t) = true
  | Continue => ready (state_fn (mp m')) (crest (mc m')) t
  end.

Lemma strip_ws x r :
  Forall (fun b => Some (negb ((b =? 13) || (b =? 10) || (b =? 9) || (b =? 32))) = Some false) x ->
  strip (x ++ r) = strip r.
Proof.
  induction 1 as [|b x H F IH]; [reflexivity|]. cbn [app strip].
  injection H as H. apply negb_false_iff in H. now rewrite H.
Qed.

Lemma run_fn_sdok h t m :
  cslice (mc m) = [] \/ detecting (state_fn (mp m)) = false ->
  ready (state_fn (mp m)) (crest (mc m)) t -> (state_fn (mp m) = StDetect1 -> crest (mc m) <> []) ->
  wp (run_fn h m) (sdok_post t).
Proof.
  destruct m as [p [cb mk sl r] l]. cbn [mp mc crest cslice].
  unfold run_fn. cbn [mp].
  destruct (state_fn p) eqn:Efn; cbn [detecting];
    (intros [Es|Es]; [|try discriminate Es]); intros D N; unfold_state; lits.
  all: try subst sl.
  all: wp_all.
  all: unfold ready in *; cbn [sdok_post mp mc crest state_fn p_set_state set_lower14 set_upper14
     with_bits with_length sdok app]; rewrite ?Efn; unfold ready; cbn [sdok].
  all: try reflexivity; try exact I; try (left; reflexivity).
  all: try (destruct (parser_type p); first [reflexivity | left; reflexivity]).
  all: try (destruct (_ =? _); first [reflexivity | left; reflexivity]).
  all: cbn [sdok] in D.
  all: try (exfalso; cbn in *; now apply N).
  all: destruct D as [D|[[D1 D]|[D1 D]]]; try discriminate D1.
  all: try (left; cbn [skipn]; exact D).
  all: try (match goal with H : (?b =? _) = true |- _ => apply N.eqb_eq in H; subst b end;
            lits; cbn [app] in D; apply andb_true_iff in D; left; now destruct D).
  all: try (exact D).
  - now rewrite strip_ws in D.
  - rewrite <- (app_nil_r r), strip_ws in D by assumption. cbn in D. lia.
  - left. rewrite <- app_assoc, strip_ws in D by assumption. cbn [app strip] in D.
    match goal with H : negb _ = true |- _ => apply negb_true_iff in H; now rewrite H in D
    | H : Some (negb _) = _ |- _ => injection H as H; apply negb_true_iff in H; now rewrite H in D end.
  - right. right. split; [reflexivity|]. rewrite strip_ws in D by assumption. cbn [strip] in D.
    match goal with H : negb _ = true |- _ => apply negb_true_iff in H; now rewrite H in D
    | H : Some (negb _) = _ |- _ => injection H as H; apply negb_true_iff in H; now rewrite H in D end.
  - exfalso. boolP. unfold byte in *. cbn [List.length] in *. lia.
Qed.

(* ------------------------------------------------------------------ *)
(* States per parser type                                               *)
(* ------------------------------------------------------------------ *)

Lemma run_fn_vstate h m :
  vstate (parser_type (mp m)) (state_fn (mp m)) = true ->
  wp (run_fn h m) (fun m' o => vstate (parser_type (mp m')) (state_fn (mp m')) = true /\
    match o with Fail (ErMultipartBoundary _) => parser_type (mp m) = Multipart | _ => True end).
Proof.
  destruct m as [p [cb mk sl r] l]. unfold run_fn. cbn [mp].
  destruct (state_fn p) eqn:Efn; destruct (parser_type p) eqn:Et; intros V; try discriminate V; clear V.
  all: unfold_state; lits.
  all: wp_all.
  all: split; [|try exact I; try assumption].
  all: cbn [mp mc ml state_fn p_set_state set_lower14 set_upper14
     with_bits with_length parser_type]; rewrite ?Efn, ?Et; try reflexivity.
  all: try (destruct (_ =? _); reflexivity).
Qed.
