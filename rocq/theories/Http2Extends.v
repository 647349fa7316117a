(* Where nothing is cut and nothing overflows unnoticed, the specification of
   Http2Full.v says what that of Http2Any.v says. *)

From Coq Require Import NArith List Bool Arith Lia.
From Verif Require Import Bytes Http2Model Http2Spec Http2Any Http2Full.
Import ListNotations.
Local Open Scope N_scope.

(* ------------------------------------------------------------------ *)
(* A frame is read the same whatever follows it                         *)
(* ------------------------------------------------------------------ *)

Definition local (f : list byte -> part) : Prop :=
  forall s e r, f s = Whole e r -> exists w, s = w ++ r /\ forall t, t <> [] -> f (w ++ t) = Whole e t.

Lemma local_whole e : local (Whole e).
Proof. intros s e' r [= <- <-]. exists []. now split. Qed.

Lemma local_short e : local (fun _ => Short e).
Proof. intros s e' r E. discriminate E. Qed.

Lemma local_say e f : local f -> local (fun s => say e (f s)).
Proof.
  intros L s e' r E. destruct (f s) as [e1 r1| |] eqn:F; try discriminate E. injection E as <- <-.
  destruct (L _ _ _ F) as (w & W & X). exists w. split; [exact W|]. intros t T. now rewrite X.
Qed.

Lemma firstn_app_l {A} k (u t : list A) : List.length u = k -> firstn k (u ++ t) = u.
Proof. intros <-. rewrite firstn_app, Nat.sub_diag, firstn_O, app_nil_r, firstn_all. reflexivity. Qed.
Lemma skipn_app_l {A} k (u t : list A) : List.length u = k -> skipn k (u ++ t) = t.
Proof. intros <-. rewrite skipn_app, Nat.sub_diag, skipn_all. reflexivity. Qed.

Lemma local_fixed k use : (forall x, local (use x)) -> local (fun s => fixed k s use).
Proof.
  intros L s e r. unfold fixed. destruct (Nat.ltb_spec (List.length s) k) as [K|K]; [discriminate|]. intros E.
  destruct (L _ _ _ _ E) as (w & W & X).
  assert (Lx : List.length (firstn k s) = k) by (rewrite firstn_length; lia).
  exists (firstn k s ++ w). split; [now rewrite <- app_assoc, <- W, firstn_skipn|].
  intros t T. rewrite <- app_assoc.
  destruct (Nat.ltb_spec (List.length (firstn k s ++ w ++ t)) k) as [Y|Y]; [rewrite app_length in Y; lia|].
  rewrite firstn_app_l, skipn_app_l by exact Lx. now apply X.
Qed.

Lemma local_pad padded len use : (forall l z, local (use l z)) -> local (fun s => pad_length padded len s use).
Proof.
  intros L s e r. unfold pad_length. destruct padded; [|apply L].
  destruct s as [|z s]; [discriminate|]. destruct (len =? 0) eqn:Z; [discriminate|]. intros E.
  destruct (L _ _ _ _ _ E) as (w & -> & X). exists (z :: w). split; [reflexivity|]. exact X.
Qed.

Lemma local_data k len z : local (data k len z).
Proof.
  intros s e r. unfold data. destruct s as [|b s]; [discriminate|].
  destruct (len <? z) eqn:Z; [discriminate|]. remember (b :: s) as u eqn:Hu. clear b s Hu.
  destruct (N.ltb_spec (N.of_nat (List.length u)) (len - z)) as [L1|L1]; [discriminate|]. cbv zeta.
  set (n := N.to_nat (len - z)). unfold padding.
  destruct (N.ltb_spec (N.of_nat (List.length (skipn n u))) z) as [L2|L2]; [discriminate|]. cbn [say].
  intros [= <- <-].
  set (m := N.to_nat z). set (v := firstn n u). set (q := firstn m (skipn n u)).
  assert (Lv : List.length v = n) by (subst v n; rewrite firstn_length; lia).
  assert (Lq : List.length q = m) by (subst q m; rewrite firstn_length; lia).
  exists (v ++ q). split; [subst v q; now rewrite <- app_assoc, firstn_skipn, firstn_skipn|].
  intros t T. rewrite <- app_assoc.
  assert (NE : v ++ q ++ t <> []).
  { intros X. apply app_eq_nil in X. destruct X as [_ X]. apply app_eq_nil in X. now apply T. }
  destruct (v ++ q ++ t) as [|b' s'] eqn:Es; [congruence|]. rewrite <- Es. clear b' s' Es NE.
  destruct (N.ltb_spec (N.of_nat (List.length (v ++ q ++ t))) (len - z)) as [Y|_].
  { rewrite app_length in Y. subst n. lia. }
  rewrite firstn_app_l, skipn_app_l by exact Lv.
  destruct (N.ltb_spec (N.of_nat (List.length (q ++ t))) z) as [Y|_].
  { rewrite app_length in Y. subst m. lia. }
  rewrite skipn_app_l by exact Lq. reflexivity.
Qed.

Lemma local_if (b : bool) f g : local f -> local g -> local (fun s => if b then f s else g s).
Proof. now destruct b. Qed.

Lemma local_more f : local f -> local (fun s => match s with [] => Part [] | _ => f s end).
Proof.
  intros L s e r E. destruct s as [|b s]; [discriminate E|]. destruct (L _ _ _ E) as (w & W & X).
  exists w. split; [exact W|]. intros t T. specialize (X t T).
  destruct (w ++ t) eqn:Q; [|exact X]. apply app_eq_nil in Q. destruct Q as [_ ->]. congruence.
Qed.

Lemma local_contents len t f : local (contents len t f).
Proof.
  unfold contents.
  destruct t as [|t]; [|destruct t as [[[[t|t|]|[t|t|]|]|[[t|t|]|[t|t|]|]|]|[[[t|t|]|[t|t|]|]|[[t|t|]|[t|t|]|]|]|]];
    repeat (first [apply local_pad; intros | apply local_data | apply local_fixed; intros
                  | apply local_whole | apply local_short | apply local_say
                  | apply (local_more (fun s => if _ <? _ then _ else _)) | apply local_if]).
Qed.

Lemma local_one_frame : local one_frame.
Proof. unfold one_frame. apply local_fixed. intros x. apply local_say. apply local_contents. Qed.

Lemma one_frame_shrinks s e r : one_frame s = Whole e r -> (List.length r < List.length s)%nat.
Proof.
  intros E. destruct (local_one_frame _ _ _ E) as (w & -> & X).
  rewrite app_length. destruct w as [|b w]; [|cbn [List.length]; lia].
  specialize (X [0]). cbn [app] in X. assert (Y : [0] <> []) by discriminate. specialize (X Y). discriminate X.
Qed.

Lemma frames_enough n : forall m s, (List.length s < n)%nat -> (List.length s < m)%nat -> frames n s = frames m s.
Proof.
  induction n as [|n IH]; intros [|m] s N M; try lia. cbn [frames].
  destruct (one_frame s) as [e r| |] eqn:E; try reflexivity.
  pose proof (one_frame_shrinks _ _ _ E). now rewrite (IH m r) by lia.
Qed.

(* Whole frames before do not matter. *)
Definition clean (pre s : list byte) : Prop :=
  forall t r, t <> [] -> s = t ++ r -> snd (decoded (pre ++ t)) = snd (decoded t).

Lemma decoded_whole w t e : one_frame (w ++ t) = Whole e t -> snd (decoded (w ++ t)) = snd (decoded t).
Proof.
  intros E. pose proof (one_frame_shrinks _ _ _ E) as L. unfold decoded at 1. cbn [frames]. rewrite E. cbn [snd].
  unfold decoded. now rewrite (frames_enough (List.length (w ++ t)) (S (List.length t)) t) by lia.
Qed.

Lemma clean_step pre s e r : clean pre s -> one_frame s = Whole e r ->
  exists w, s = w ++ r /\ clean (pre ++ w) r.
Proof.
  intros C E. destruct (local_one_frame _ _ _ E) as (w & -> & X). exists w. split; [reflexivity|].
  intros t r' T ->. rewrite <- app_assoc. rewrite (C (w ++ t) r').
  - apply (decoded_whole w t e). now apply X.
  - intros Y. apply app_eq_nil in Y. destruct Y as [_ ->]. congruence.
  - now rewrite app_assoc.
Qed.

(* ------------------------------------------------------------------ *)
(* Cuts                                                                 *)
(* ------------------------------------------------------------------ *)

Lemma cut_pieces segs left : cut_at segs left = true ->
  exists before after, segs = before ++ after /\ List.length (List.concat after) = left.
Proof.
  unfold cut_at. induction segs as [|x segs IH]; [discriminate|]. cbn [ends existsb].
  destruct (Nat.eqb_spec left (List.length (List.concat segs))) as [->|_].
  - intros _. now exists [x], segs.
  - cbn [orb]. intros E. destruct (IH E) as (b & a & -> & L). now exists (x :: b), a.
Qed.

Lemma split_false segs pre s i j : whole_fields segs -> List.concat segs = pre ++ s -> clean pre s ->
  (j <= List.length s)%nat ->
  (forall k, (i < k < j)%nat -> snd (decoded (firstn k s)) = Some (firstn k s) /\ inside (firstn k s) = true) ->
  split (cut_at segs) s i j = false.
Proof.
  intros W Es C J K. unfold split. apply not_true_is_false. intros X.
  apply existsb_exists in X. destruct X as (k & I & X). apply in_seq in I.
  destruct (cut_pieces _ _ X) as (b & a & E & L).
  destruct (K k ltac:(lia)) as [K1 K2].
  assert (Eb : List.concat b = pre ++ firstn k s).
  { rewrite E, concat_app in Es. rewrite <- (firstn_skipn k s), app_assoc in Es.
    assert (List.length (List.concat a) = List.length (skipn k s)) as La by (rewrite skipn_length; exact L).
    clear -Es La. revert Es La. generalize (List.concat b) (List.concat a) (pre ++ firstn k s) (skipn k s).
    intros x y u v Es La. assert (List.length x = List.length u).
    { apply (f_equal (@List.length byte)) in Es. rewrite !app_length in Es. lia. }
    revert u H Es. induction x as [|c x IH]; intros [|d u] H Es; try discriminate H; [reflexivity|].
    injection Es as -> Es. f_equal. apply IH; [now injection H|exact Es]. }
  specialize (W b a (firstn k s) E). rewrite Eb, (C (firstn k s) (skipn k s)) in W.
  - rewrite (W K1) in K2. discriminate K2.
  - intros Y. apply (f_equal (@List.length byte)) in Y. rewrite firstn_length in Y. cbn [List.length] in Y. lia.
  - now rewrite firstn_skipn.
Qed.

(* ------------------------------------------------------------------ *)
(* Frame by frame                                                       *)
(* ------------------------------------------------------------------ *)

Definition agree (chk : bool) (q : part) (g : got) : Prop :=
  match q with
  | Whole e r => g = Frame e r
  | Part e => exists a, g = Awaits a e
  | Short e => chk = true -> g = Overflow e
  end.

Lemma agree_say chk e q g : agree chk q g -> agree chk (say e q) (saying e g).
Proof.
  destruct q; cbn [agree say].
  - now intros ->.
  - intros (a & ->). now exists a.
  - intros X C. now rewrite (X C).
Qed.

Lemma agree_fields chk ats s use use' : (forall x r, s = x ++ r -> List.length x = List.length ats -> agree chk (use x r) (use' x r)) ->
  agree chk (fixed (List.length ats) s use) (fields ats s use').
Proof.
  intros X. unfold fixed, fields. destruct (Nat.ltb_spec (List.length s) (List.length ats)) as [L|L].
  - destruct (nth_error ats (List.length s)) as [a|] eqn:E; [now exists a|].
    apply nth_error_None in E. lia.
  - destruct (nth_error ats (List.length s)) as [a|] eqn:E.
    + exfalso. assert (nth_error ats (List.length s) <> None) as Y by congruence. apply nth_error_Some in Y. lia.
    + apply X; [now rewrite firstn_skipn|]. rewrite firstn_length. lia.
Qed.

Lemma agree_less chk len k q use : (k <= len -> agree chk q (use (len - k))) ->
  agree chk (if len <? k then Short [] else q) (less chk len k use).
Proof.
  intros X. unfold less. destruct (N.ltb_spec len k), (N.leb_spec k len); try lia; [|auto].
  cbn [agree]. now intros ->.
Qed.

Lemma agree_data chk a k len z s : agree chk (data k len z s) (full_data chk a k len z s).
Proof.
  unfold data, full_data. destruct s as [|b s]; [now exists a|]. apply agree_less. intros _.
  destruct (N.of_nat _ <? len - z); [now exists a|]. cbv zeta. apply agree_say.
  unfold padding, pad_bytes. destruct (N.of_nat _ <? z); [now exists StFramePadding|]. reflexivity.
Qed.

Lemma agree_pad chk padded a len s use use' : (forall l z r, agree chk (use l z r) (use' l z r)) ->
  agree chk (pad_length padded len s use) (full_pad chk padded a len s use').
Proof.
  intros X. unfold pad_length, full_pad. destruct padded; [|apply X].
  destruct s as [|z s]; [now exists a|].
  assert (E : forall q : part, (if len =? 0 then Short [] else q) = if len <? 1 then Short [] else q).
  { intros q. destruct (N.eqb_spec len 0), (N.ltb_spec len 1); (reflexivity || lia). }
  rewrite E. apply agree_less. intros _. apply X.
Qed.

Lemma agree_contents chk lost len t f s : (t = 4 -> (6 <= List.length s)%nat -> lost = false) ->
  (t = 7 -> (8 <= List.length s)%nat -> lost = false) ->
  agree chk (contents len t f s) (full_contents chk lost len t f s).
Proof.
  intros L4 L7. unfold contents, full_contents.
  destruct t as [|t]; [|destruct t as [[[[t|t|]|[t|t|]|]|[[t|t|]|[t|t|]|]|]|[[[t|t|]|[t|t|]|]|[[t|t|]|[t|t|]|]|]|]];
    try (apply agree_pad; intros; apply agree_data); try apply agree_data;
    try (match goal with |- agree _ (fixed _ _ _) (fields ?ats _ _) =>
           apply (agree_fields chk ats); intros; reflexivity end).
  - (* GOAWAY *)
    destruct lost.
    + match goal with |- agree _ _ (fields ?ats _ ?u) => set (A := ats); set (U := u) end.
      unfold fixed. destruct (Nat.ltb_spec (List.length s) 8) as [K|K].
      * unfold fields. destruct (nth_error A (List.length s)) as [a|] eqn:E; [now exists a|].
        apply nth_error_None in E. cbn [A List.length app] in E. lia.
      * specialize (L7 eq_refl K). discriminate L7.
    + match goal with |- agree _ _ (fields ?ats _ _) => apply (agree_fields chk ats) end. intros x r _ _.
      apply agree_less. intros L. apply agree_say.
      replace (len - 8 =? 0) with (len =? 8).
      * destruct (len =? 8); [reflexivity|apply agree_data].
      * destruct (N.eqb_spec len 8), (N.eqb_spec (len - 8) 0); (reflexivity || lia).
  - (* PUSH_PROMISE *)
    apply agree_pad. intros l z r.
    match goal with |- agree _ _ (fields ?ats _ _) => apply (agree_fields chk ats) end. intros x r' _ _.
    destruct r'; [now exists StPushPromiseCallback|]. apply agree_less. intros _. apply agree_say. apply agree_data.
  - (* SETTINGS *)
    match goal with |- agree _ _ (fields ?ats _ _) => apply (agree_fields chk ats) end. intros x r E X.
    cbn [List.length] in X. rewrite L4; [reflexivity|reflexivity|]. rewrite E, app_length. lia.
  - (* HEADERS *)
    apply agree_pad. intros l z r. destruct (flag_priority f).
    + match goal with |- agree _ _ (fields ?ats _ _) => apply (agree_fields chk ats) end. intros x r' _ _.
      apply agree_less. intros _. apply agree_say. apply agree_data.
    + destruct (flag_padded f); [apply agree_say|]; apply agree_data.
Qed.

Lemma field_firstn k s i n : (i + n <= k)%nat -> field (firstn k s) i n = field s i n.
Proof. intros L. unfold field. rewrite skipn_firstn_comm, firstn_firstn. f_equal. f_equal. lia. Qed.

Lemma decoded_part s e : one_frame s = Part e -> snd (decoded s) = Some s.
Proof. intros E. unfold decoded. cbn [frames]. now rewrite E. Qed.

Lemma inside_header k s : (5 < k < 9)%nat -> (9 <= List.length s)%nat ->
  snd (decoded (firstn k s)) = Some (firstn k s) /\ inside (firstn k s) = true.
Proof.
  intros K L. assert (Lk : List.length (firstn k s) = k) by (rewrite firstn_length; lia). split.
  - apply (decoded_part _ []). unfold one_frame, fixed. rewrite Lk.
    destruct (Nat.ltb_spec k 9); [reflexivity|lia].
  - unfold inside. rewrite Lk. cbv zeta. destruct (Nat.ltb_spec 5 k), (Nat.ltb_spec k 9); (reflexivity || lia).
Qed.

Lemma inside_contents t k s : t = 7 /\ (9 < k < 13)%nat \/ t = 4 /\ (11 < k < 15)%nat -> (k <= List.length s)%nat ->
  field (firstn 9 s) 3 1 = t -> snd (decoded (firstn k s)) = Some (firstn k s) /\ inside (firstn k s) = true.
Proof.
  intros K L T. assert (Lk : List.length (firstn k s) = k) by (rewrite firstn_length; lia). split.
  - unfold decoded. cbn [frames].
    assert (E : exists e, one_frame (firstn k s) = Part e); [|destruct E as (e & ->); reflexivity].
    unfold one_frame, fixed at 1. rewrite Lk. destruct (Nat.ltb_spec k 9); [lia|].
    rewrite firstn_firstn, Nat.min_l, T by lia.
    assert (Lr : (List.length (skipn 9 (firstn k s)) = k - 9)%nat) by (rewrite skipn_length, Lk; reflexivity).
    destruct K as [[-> K]|[-> K]]; unfold contents, fixed; rewrite Lr.
    + destruct (Nat.ltb_spec (k - 9) 8); [|lia]. cbn [say]. eexists. reflexivity.
    + destruct (Nat.ltb_spec (k - 9) 6); [|lia]. cbn [say]. eexists. reflexivity.
  - unfold inside. rewrite Lk. cbv zeta. rewrite field_firstn in T |- * by lia. rewrite T.
    destruct K as [[-> K]|[-> K]].
    + destruct (Nat.ltb_spec 9 k), (Nat.ltb_spec k 13); try lia. cbn. now rewrite orb_true_r.
    + destruct (Nat.ltb_spec 11 k), (Nat.ltb_spec k 15); try lia. cbn. now rewrite orb_true_r.
Qed.

Lemma agree_frame chk segs pre s : whole_fields segs -> List.concat segs = pre ++ s -> clean pre s ->
  agree chk (one_frame s) (full_frame chk (cut_at segs) s).
Proof.
  intros W Es C. unfold one_frame, full_frame.
  match goal with |- agree _ _ (fields ?ats _ _) => apply (agree_fields chk ats) end. intros x r E X.
  cbn [List.length] in X. cbv zeta.
  assert (Lr : (List.length s = 9 + List.length r)%nat) by (rewrite E, app_length; lia).
  assert (Ex : firstn 9 s = x) by (rewrite E; now apply firstn_app_l).
  rewrite (split_false segs pre s 5 9 W Es C ltac:(lia)) by (intros; apply inside_header; lia).
  apply agree_say. apply agree_contents.
  - intros T L. rewrite T. change (4 =? 7) with false. cbv iota.
    apply (split_false segs pre); try assumption; [lia|]. intros k K.
    apply (inside_contents 4); [right; now split|lia|now rewrite Ex].
  - intros T L. rewrite T. change (7 =? 7) with true. cbv iota.
    apply (split_false segs pre); try assumption; [lia|]. intros k K.
    apply (inside_contents 7); [left; now split|lia|now rewrite Ex].
Qed.

Lemma agree_frames chk segs n : forall pre s, whole_fields segs -> List.concat segs = pre ++ s -> clean pre s ->
  (snd (frames n s) = None -> chk = true) ->
  fst (full_frames chk (cut_at segs) n s) = fst (frames n s) /\
  option_map snd (snd (full_frames chk (cut_at segs) n s)) = snd (frames n s).
Proof.
  induction n as [|n IH]; intros pre s W Es C O; [now split|]. cbn [frames full_frames] in O |- *.
  pose proof (agree_frame chk segs pre s W Es C) as A. destruct (one_frame s) as [e r|e|e] eqn:E; cbn [agree] in A.
  - rewrite A. cbn [fst snd] in O |- *. destruct (clean_step _ _ _ _ C E) as (w & -> & C').
    destruct (IH (pre ++ w) r W) as [I1 I2]; [now rewrite <- app_assoc|exact C'|exact O|].
    now rewrite I1, I2.
  - destruct A as (a & ->). now split.
  - rewrite A by (apply O; reflexivity). now split.
Qed.

Lemma full_extends chk segs : whole_fields segs ->
  (snd (decoded (List.concat segs)) = None -> chk = true) ->
  fst (full chk segs) = fst (decoded (List.concat segs)) /\
  option_map snd (snd (full chk segs)) = snd (decoded (List.concat segs)).
Proof.
  intros W O. unfold full, decoded in *. apply (agree_frames chk segs _ []); [exact W|reflexivity| |exact O].
  intros t r _ _. reflexivity.
Qed.
