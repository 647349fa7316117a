(* A handler that has been called before: proofs. *)

From Coq Require Import NArith List Bool Arith String Lia.
From Verif Require Import Bytes ByteStream Http1Model Http1Base Http1Wp Http1Term Http1Spec Http1Same.
Import ListNotations.
Local Open Scope N_scope.

Section Shift.
  Variables (L : list event) (h : handler).

  (* The handler as seen from after the calls L. *)
  Definition shift : handler := Handler (fun l e => h_ret h (L ++ l) e) (fun l => h_clen h (L ++ l)).

  Definition addl (m : mach) : mach := Mach (mp m) (mc m) (L ++ ml m).

  Definition srel (a b : mach * outcome) : Prop := b = (addl (fst a), snd a).

  Lemma srel_if (c : bool) a a' b b' : srel a a' -> srel b b' -> srel (if c then a else b) (if c then a' else b').
  Proof. now destruct c. Qed.

  Lemma srel_next m k1 k2 : (forall m' b, srel (k1 m' b) (k2 (addl m') b)) ->
    srel (next_or_eos m k1) (next_or_eos (addl m) k2).
  Proof. intros H. unfold next_or_eos. cbn [addl mc]. destruct (bs_next (mc m)); [exact (H (with_c m c) _)|reflexivity]. Qed.

  Lemma srel_unchecked m k1 k2 : (forall m' b, srel (k1 m' b) (k2 (addl m') b)) ->
    srel (next_unchecked m k1) (next_unchecked (addl m) k2).
  Proof. intros H. unfold next_unchecked. cbn [addl mc]. destruct (bs_next (mc m)); [exact (H (with_c m c) _)|reflexivity]. Qed.

  Lemma srel_collecting stop m e1 e2 k1 k2 :
    (forall m', srel (e1 m') (e2 (addl m'))) -> (forall m' b, srel (k1 m' b) (k2 (addl m') b)) ->
    srel (collecting (bs_collect stop (mc m)) m e1 k1) (collecting (bs_collect stop (mc m)) (addl m) e2 k2).
  Proof.
    intros He Hk. unfold collecting. cbn [addl mc].
    destruct (bs_collect stop (mc m)); [exact (Hk (with_c m c) _)|exact (He (with_c m c))|reflexivity].
  Qed.

  Lemma srel_starts m lit y1 y2 n1 n2 : srel y1 y2 -> srel n1 n2 ->
    srel (if_starts_with m lit y1 n1) (if_starts_with (addl m) lit y2 n2).
  Proof.
    intros Hy Hn. unfold if_starts_with. cbn [addl mc]. destruct (bs_starts_with _ _) as [[|]|]; auto. reflexivity.
  Qed.

  Lemma srel_data m e x1 x2 : (forall m', srel (x1 m') (x2 (addl m'))) ->
    srel (callback_data shift m e x1) (callback_data h (addl m) e x2).
  Proof.
    intros H. unfold callback_data, call. cbn [shift h_ret addl mp mc ml].
    destruct (h_ret h (L ++ ml m) e); rewrite <- app_assoc.
    - exact (H (Mach (mp m) (mc m) (ml m ++ [e]))).
    - reflexivity.
  Qed.

  Lemma srel_slice m k x1 x2 : (forall m', srel (x1 m') (x2 (addl m'))) ->
    srel (callback_slice shift m k x1) (callback_slice h (addl m) k x2).
  Proof.
    intros H. unfold callback_slice. cbn [addl mc]. destruct (_ <? _)%nat; [|exact (H m)].
    exact (srel_data m _ x1 x2 H).
  Qed.

  Lemma srel_remark m : srel (remark m) (remark (addl m)).
  Proof. reflexivity. Qed.

  Lemma srel_eos m : srel (exit_eos m) (exit_eos (addl m)).
  Proof. reflexivity. Qed.

  Lemma srel_chain m tbl n1 n2 : srel n1 n2 ->
    srel (name_chain shift m tbl n1) (name_chain h (addl m) tbl n2).
  Proof.
    intros Hn. induction tbl as [|[[lit name] len] tbl IH]; cbn [name_chain]; [exact Hn|].
    apply srel_starts; [|exact IH]. unfold header_name_found, callback_transition_data.
    apply (srel_data (set_state (jump m len) _)). apply srel_remark.
  Qed.
End Shift.

Ltac sfold L m :=
  repeat match goal with
  | |- context [mc (addl L ?x)] => change (mc (addl L x)) with (mc x)
  | |- context [mp (addl L ?x)] => change (mp (addl L x)) with (mp x)
  | |- context [with_c (addl L ?x) ?c] => change (with_c (addl L x) c) with (addl L (with_c x c))
  | |- context [with_p (addl L ?x) ?c] => change (with_p (addl L x) c) with (addl L (with_p x c))
  | |- context [jump (addl L ?x) ?c] => change (jump (addl L x) c) with (addl L (jump x c))
  | |- context [replay (addl L ?x)] => change (replay (addl L x)) with (addl L (replay x))
  | |- context [set_state (addl L ?x) ?c] => change (set_state (addl L x) c) with (addl L (set_state x c))
  end.

Ltac sstep :=
  match goal with
  | |- srel ?L (if ?c then _ else _) (if ?c then _ else _) => apply srel_if
  | |- srel ?L (next_or_eos _ _) _ => apply srel_next; intros ? ?
  | |- srel ?L (next_unchecked _ _) _ => apply srel_unchecked; intros ? ?
  | |- srel ?L (collecting _ _ _ _) _ => apply srel_collecting; [intros ?|intros ? ?]
  | |- srel ?L (if_starts_with _ _ _ _) _ => apply srel_starts
  | |- srel ?L (name_chain _ _ _ _) _ => apply srel_chain
  | |- srel ?L (callback_transition_data _ _ _ (match ?x with _ => _ end)) _ => destruct x
  | |- srel ?L (callback_transition_data _ ?m _ ?s) _ => apply (srel_data L _ (set_state m s)); intros ?; apply srel_remark
  | |- srel ?L (callback_transition_slice _ ?m _ ?s) _ => apply (srel_slice L _ (set_state m s)); intros ?; apply srel_remark
  | |- srel ?L (callback_eos _ ?m _) _ => apply (srel_slice L _ m); intros ?; apply srel_eos
  | |- srel ?L (callback_slice _ ?m _ _) _ => apply (srel_slice L _ m); intros ?
  | |- srel ?L (callback_data _ ?m _ _) _ => apply (srel_data L _ m); intros ?
  | |- srel ?L (match ?x with _ => _ end) (match ?x with _ => _ end) => destruct x
  | |- srel ?L _ _ => reflexivity
  end.

Lemma run_fn_shift L h m : srel L (run_fn (shift L h) m) (run_fn h (addl L m)).
Proof.
  unfold run_fn. cbn [addl mp]. change (Mach (mp m) (mc m) (L ++ ml m)) with (addl L m).
  destruct (state_fn (mp m)) eqn:Efn.
  all: repeat (pflat; unfold callback_ignore_transition; cbv zeta; sfold L m; sstep).
  - unfold header_escaped_value. sfold L m. destruct (bs_next (mc m)) as [c|].
    + sfold L m. apply srel_if; [|reflexivity]. apply (srel_slice L _ (set_state (with_c m c) _)). intros ?. apply srel_remark.
    + apply (srel_slice L _ m). intros ?. apply srel_eos.
  - unfold multipart_detect_data, call. cbn [shift h_clen addl ml mp mc].
    destruct (h_clen h (L ++ ml m)); unfold srel; cbn; rewrite <- ?app_assoc; reflexivity.
Qed.

Lemma parse_shift L h fuel : forall m,
  parse fuel h (addl L m) = (addl L (fst (parse fuel (shift L h) m)), snd (parse fuel (shift L h) m)).
Proof.
  induction fuel as [|fuel IH]; intros m; [reflexivity|]. cbn [parse].
  pose proof (run_fn_shift L h m) as R. unfold srel in R. rewrite R.
  destruct (run_fn (shift L h) m) as [m1 [|[]| |]]; cbn [fst snd]; try reflexivity. apply IH.
Qed.

Lemma resume_shift L h p log s :
  resume h p (L ++ log) s =
  let '(p', log', r) := resume (shift L h) p log s in (p', L ++ log', r).
Proof.
  unfold resume. destruct (parser_type p); cbv zeta.
  1-3: change (Mach p (bs_new s) (L ++ log)) with (addl L (Mach p (bs_new s) log)); rewrite parse_shift;
       destruct (parse _ (shift L h) _); reflexivity.
  set (v := if _ <? _ then _ else _). clearbody v.
  change (Mach p (bs_new v) (L ++ log)) with (addl L (Mach p (bs_new v) log)). rewrite parse_shift.
  destruct (parse (fuel_of v) (shift L h) (Mach p (bs_new v) log)) as [m r]. cbn [fst snd addl mp].
  destruct r as [[n|n|n]|e|f|]; try reflexivity; (destruct (plength (mp m) <? N.of_nat n); [reflexivity|]); [reflexivity|].
  destruct (_ =? 0); [|reflexivity].
  change (with_p (addl L m) (p_set_state (mp m) StBodyFinished)) with (addl L (with_p m (p_set_state (mp m) StBodyFinished))).
  change (with_p (Mach (mp m) (mc m) (L ++ ml m)) (p_set_state (mp m) StBodyFinished))
    with (addl L (with_p m (p_set_state (mp m) StBodyFinished))).
  rewrite parse_shift. destruct (parse _ (shift L h) _); reflexivity.
Qed.

Lemma client_shift L h fuel : forall p log segs,
  client fuel h p (L ++ log) segs =
  let '(p', log', rest, o) := client fuel (shift L h) p log segs in (p', L ++ log', rest, o).
Proof.
  induction fuel as [|fuel IH]; intros p log [|seg more]; try reflexivity. cbn [client]. rewrite resume_shift.
  destruct (resume (shift L h) p log seg) as [[p1 log1] [[n|n|n]|e|f|]]; try reflexivity; apply IH.
Qed.
