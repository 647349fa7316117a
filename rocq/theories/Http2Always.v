(* What happens in every case in which an expectation about HTTP/2 was refuted by
   a witness: fields that are cut, frames whose length does not fit. *)

From Coq Require Import NArith List Bool Arith String Lia.
From Verif Require Import Bytes Http2Model Http2Spec Http2Any Http2AnyFacts Http2Full Http2FullApi Http2ForwardFacts Http2Api.
Import ListNotations.
Local Open Scope N_scope.
Local Open Scope list_scope.

Lemma take_fields ats x r use : List.length x = List.length ats -> fields ats (x ++ r) use = use x r.
Proof.
  intros L. unfold fields. rewrite (proj2 (nth_error_None ats _)).
  - rewrite <- L, firstn_app, Nat.sub_diag, firstn_all, skipn_app, skipn_all, Nat.sub_diag. cbn [firstn skipn].
    now rewrite app_nil_r.
  - rewrite app_length. lia.
Qed.

Lemma low16 b v : v < 2 ^ 31 ->
  num [bit31 b v / 2 ^ 8 mod 256; bit31 b v mod 256] = v mod 2 ^ 16.
Proof.
  intros V. unfold num. cbn [fold_left]. change (0 * 256) with 0. rewrite N.add_0_l.
  assert (X : bit31 b v mod 2 ^ 16 = v mod 2 ^ 16).
  { unfold bit31. destruct b; [|reflexivity]. change (2 ^ 31) with (2 ^ 15 * 2 ^ 16).
    rewrite N.add_comm. apply N.mod_add. discriminate. }
  rewrite <- X. change (2 ^ 16) with (256 * 256). rewrite N.mod_mul_r by discriminate. change (2 ^ 8) with 256. lia.
Qed.

Lemma full_header chk cut len t f rsv sid body : len < 2 ^ 24 -> sid < 2 ^ 31 ->
  let s := render_header len t f rsv sid ++ body in
  full_frame chk cut s =
  saying [FEv (EFrameFormat len t f (if split cut s 5 9 then sid mod 2 ^ 16 else sid))]
         (full_contents chk (if t =? 7 then split cut s 9 13 else split cut s 11 15) len t f body).
Proof.
  intros L S s. unfold full_frame, s. rewrite take_fields by reflexivity. cbv zeta.
  change (field (render_header len t f rsv sid) 0 3) with (num (be24 len)).
  change (field (render_header len t f rsv sid) 3 1) with t.
  change (field (render_header len t f rsv sid) 4 1) with f.
  change (field (render_header len t f rsv sid) 5 4) with (num (be32 (bit31 rsv sid))).
  change (field (render_header len t f rsv sid) 7 2) with (num [bit31 rsv sid / 2 ^ 8 mod 256; bit31 rsv sid mod 256]).
  destruct (bit31_bounds rsv sid S) as (B1 & _ & B2).
  now rewrite num_be24, num_be32, low16, B2 by assumption.
Qed.

Lemma cut_there before after : before <> [] -> cut_at (before ++ after) (List.length (List.concat after)) = true.
Proof.
  intros NE. unfold cut_at. apply existsb_exists. exists (List.length (List.concat after)). split; [|apply Nat.eqb_refl].
  induction before as [|x before IH]; [contradiction|]. cbn [app ends].
  destruct before as [|y before]; [left; reflexivity|right]. apply IH. discriminate.
Qed.

Lemma split_there before after s i j : List.concat (before ++ after) = s ->
  (i < List.length (List.concat before) < j)%nat -> split (cut_at (before ++ after)) s i j = true.
Proof.
  intros E K. unfold split. apply existsb_exists. exists (List.length (List.concat before)). split.
  - apply in_seq. lia.
  - rewrite <- E, concat_app, app_length. rewrite Nat.add_comm, Nat.add_sub. apply cut_there.
    intros ->. cbn in K. lia.
Qed.

Lemma empty_contents chk lost len t f : exists a, full_contents chk lost len t f [] = Awaits a [].
Proof.
  unfold full_contents.
  repeat match goal with
  | |- context [match ?x with N0 => _ | Npos _ => _ end] => destruct x
  | |- context [match ?x with xH => _ | xO _ => _ | xI _ => _ end] => destruct x
  end;
  destruct (flag_padded f); try (eexists; reflexivity); destruct (flag_priority f); eexists; reflexivity.
Qed.

Lemma bytes_header len t f rsv sid : t < 256 -> f < 256 -> bytes (render_header len t f rsv sid).
Proof.
  intros T F. unfold render_header. apply Forall_app. split; [apply be24_bytes|].
  apply Forall_app. split; [now repeat constructor|apply be32_bytes].
Qed.

Lemma one_awaits chk segs a e : full_frame chk (cut_at segs) (List.concat segs) = Awaits a e ->
  full chk segs = (e, Some (a, List.concat segs)).
Proof. intros E. unfold full. cbn [full_frames]. now rewrite E. Qed.

(* C35 *)
Lemma cut_identifier chk h len t f rsv sid before after :
  len < 2 ^ 24 -> t < 256 -> f < 256 -> sid < 2 ^ 31 ->
  List.concat (before ++ after) = render_header len t f rsv sid ->
  (5 < List.length (List.concat before) < 9)%nat ->
  exists p log, feed chk h new (before ++ after) = (p, log, OEos) /\
    flat log = [FEv (EFrameFormat len t f (sid mod 2 ^ 16))].
Proof.
  intros L T F S E K.
  assert (B : bytes (List.concat (before ++ after))) by (rewrite E; now apply bytes_header).
  assert (P : chk = false -> Forall (fun s => N.of_nat (List.length s) <= 2 ^ 24 - 256) (before ++ after)).
  { intros _. apply Forall_forall. intros s I. apply in_split in I. destruct I as (x & y & I).
    assert (Z : List.length (List.concat (before ++ after)) = 9%nat) by now rewrite E.
    rewrite I, concat_app in Z. cbn [List.concat] in Z. rewrite !app_length in Z.
    transitivity 9; [lia|discriminate]. }
  destruct (h2_full chk h (before ++ after) B P) as (p & log & X & Y & _).
  destruct (empty_contents chk (if t =? 7 then split (cut_at (before ++ after)) (List.concat (before ++ after)) 9 13
    else split (cut_at (before ++ after)) (List.concat (before ++ after)) 11 15) len t f) as (a & A).
  assert (G : full chk (before ++ after) =
    ([FEv (EFrameFormat len t f (sid mod 2 ^ 16))], Some (a, List.concat (before ++ after)))).
  { apply one_awaits.
    pose proof (full_header chk (cut_at (before ++ after)) len t f rsv sid [] L S) as H. cbv zeta in H.
    rewrite app_nil_r, <- E, A in H. rewrite H, (split_there before after _ 5 9 eq_refl K). reflexivity. }
  rewrite G in X, Y. exists p, log. now split.
Qed.

(* C36 *)
Lemma lost_contents chk len t f s : t = 7 \/ t = 4 -> exists a,
  full_contents chk true len t f s = Awaits a [].
Proof.
  intros [->| ->]; cbn [full_contents app]; unfold fields;
    match goal with |- context [nth_error ?l ?n] => destruct (nth_error l n) end; eexists; reflexivity.
Qed.

Lemma cut_for_ever chk h len t f rsv sid body before after :
  len < 2 ^ 24 -> t < 256 -> f < 256 -> sid < 2 ^ 31 -> bytes body ->
  List.concat (before ++ after) = render_header len t f rsv sid ++ body ->
  t = 7 /\ (9 < List.length (List.concat before) < 13)%nat \/
  t = 4 /\ (11 < List.length (List.concat before) < 15)%nat ->
  (chk = false -> Forall (fun s => N.of_nat (List.length s) <= 2 ^ 24 - 256) (before ++ after)) ->
  exists p log id, feed chk h new (before ++ after) = (p, log, OEos) /\
    flat log = [FEv (EFrameFormat len t f id)].
Proof.
  intros L T F S Bb E K P.
  assert (B : bytes (List.concat (before ++ after))).
  { rewrite E. apply Forall_app. split; [now apply bytes_header|exact Bb]. }
  destruct (h2_full chk h (before ++ after) B P) as (p & log & X & Y & _).
  destruct (lost_contents chk len t f body) as (a & A); [tauto|].
  pose proof (full_header chk (cut_at (before ++ after)) len t f rsv sid body L S) as H. cbv zeta in H.
  rewrite <- E in H.
  replace (if t =? 7 then split (cut_at (before ++ after)) (List.concat (before ++ after)) 9 13
    else split (cut_at (before ++ after)) (List.concat (before ++ after)) 11 15) with true in H.
  - rewrite A in H. cbn [saying app] in H. rewrite (one_awaits _ _ _ _ H) in X, Y. eexists p, log, _. split; [exact X|exact Y].
  - symmetry. destruct K as [[-> K]|[-> K]]; cbn [N.eqb Pos.eqb]; now apply split_there.
Qed.

(* C40 *)
Lemma settings_six chk h len f rsv sid i v :
  len < 2 ^ 24 -> f < 256 -> sid < 2 ^ 31 -> i < 2 ^ 16 -> v < 2 ^ 32 ->
  exists p log, feed chk h new [render_header len 4 f rsv sid ++ be16 i ++ be32 v] = (p, log, OEos) /\
    flat log = [FEv (EFrameFormat len 4 f sid); FEv (ESettings i v)] /\ state p = StFrameLength1.
Proof.
  intros L F S I V.
  set (s := render_header len 4 f rsv sid ++ be16 i ++ be32 v).
  assert (E : List.concat [s] = s) by apply app_nil_r.
  assert (B : bytes (List.concat [s])).
  { rewrite E. apply Forall_app. split; [now apply bytes_header|]. apply Forall_app. split; [apply be16_bytes|apply be32_bytes]. }
  destruct (h2_full chk h [s] B) as (p & log & X & Y & Z).
  { intros _. constructor; [discriminate|constructor]. }
  assert (G : full chk [s] = ([FEv (EFrameFormat len 4 f sid); FEv (ESettings i v)], Some (StFrameLength1, []))).
  { unfold full. rewrite E. change (List.length s) with 15%nat.
    assert (H : full_frame chk (cut_at [s]) s = Frame [FEv (EFrameFormat len 4 f sid); FEv (ESettings i v)] []).
    { pose proof (full_header chk (cut_at [s]) len 4 f rsv sid (be16 i ++ be32 v) L S) as H. cbv zeta in H.
      fold s in H. rewrite H.
      change (split (cut_at [s]) s 5 9) with false. change (4 =? 7) with false.
      change (split (cut_at [s]) s 11 15) with false. cbn [full_contents].
      rewrite <- (app_nil_r (be16 i ++ be32 v)), take_fields by reflexivity.
      change (field (be16 i ++ be32 v) 0 2) with (num (be16 i)).
      change (field (be16 i ++ be32 v) 2 4) with (num (be32 v)).
      now rewrite num_be16, num_be32. }
    set (n := 15%nat). cbn [full_frames]. rewrite H. reflexivity. }
  rewrite G in X, Y, Z. exists p, log. split; [exact X|]. split; [exact Y|]. now destruct (Z _ _ eq_refl).
Qed.

(* C39 *)
Lemma long_padding chk h len f rsv sid z b d :
  0 < len < 2 ^ 24 -> f < 256 -> flag_padded f = true -> sid < 2 ^ 31 -> z < 256 -> len - 1 < z -> bytes (b :: d) ->
  N.of_nat (10 + List.length (b :: d)) <= 2 ^ 24 - 256 ->
  exists p log, feed chk h new [render_header len 0 f rsv sid ++ z :: b :: d] =
      (p, log, if chk then OFault FOverflow else OEos) /\
    flat log = FEv (EFrameFormat len 0 f sid) :: (if chk then [] else map (FByte KData) (b :: d)).
Proof.
  intros [L0 L] F PF S Zb Lz Bd Len.
  set (s := render_header len 0 f rsv sid ++ z :: b :: d).
  assert (E : List.concat [s] = s) by apply app_nil_r.
  assert (B : bytes (List.concat [s])).
  { rewrite E. apply Forall_app. split; [now apply bytes_header|]. now constructor. }
  destruct (h2_full chk h [s] B) as (p & log & X & Y & _).
  { intros _. constructor; [exact Len|constructor]. }
  assert (H : full_frame chk (cut_at [s]) s =
    if chk then Overflow [FEv (EFrameFormat len 0 f sid)]
    else Awaits StDataData (FEv (EFrameFormat len 0 f sid) :: map (FByte KData) (b :: d))).
  { pose proof (full_header chk (cut_at [s]) len 0 f rsv sid (z :: b :: d) L S) as H. cbv zeta in H.
    fold s in H. rewrite H.
    change (split (cut_at [s]) s 5 9) with false. change (0 =? 7) with false.
    cbn [full_contents]. rewrite PF. cbn [full_pad]. unfold less at 1.
    replace (1 <=? len) with true by (symmetry; apply N.leb_le; lia).
    cbn [full_data]. unfold less. replace (z <=? len - 1) with false by (symmetry; apply N.leb_gt; lia).
    destruct chk; [reflexivity|].
    match goal with |- context [?x <? ?y] => replace (x <? y) with true end; [reflexivity|].
    symmetry. apply N.ltb_lt. change (2 ^ 24) with 16777216 in *. cbn [List.length] in *. lia. }
  assert (G : full chk [s] = if chk then ([FEv (EFrameFormat len 0 f sid)], None)
    else (FEv (EFrameFormat len 0 f sid) :: map (FByte KData) (b :: d), Some (StDataData, s))).
  { unfold full. rewrite E. cbn [full_frames]. rewrite H. now destruct chk. }
  rewrite G in X, Y. exists p, log. destruct chk; now split.
Qed.

(* C42 *)
Lemma split_single s i j : (j <= List.length s)%nat -> split (cut_at [s]) s i j = false.
Proof.
  intros L. unfold split. apply not_true_iff_false. intros E. apply existsb_exists in E. destruct E as (k & I & C).
  apply in_seq in I. unfold cut_at in C. cbn [ends List.concat List.length existsb] in C.
  rewrite orb_false_r in C. apply Nat.eqb_eq in C. lia.
Qed.

Lemma awaited chk h len t f rsv sid body a e :
  len < 2 ^ 24 -> t < 256 -> f < 256 -> sid < 2 ^ 31 -> bytes body -> (List.length body <= 100)%nat ->
  (forall lost, full_contents chk lost len t f body = Awaits a e) ->
  exists p log, feed chk h new [render_header len t f rsv sid ++ body] = (p, log, OEos) /\
    flat log = FEv (EFrameFormat len t f sid) :: e.
Proof.
  intros L T F S Bb Lb A.
  set (s := render_header len t f rsv sid ++ body).
  assert (E : List.concat [s] = s) by apply app_nil_r.
  assert (B : bytes (List.concat [s])).
  { rewrite E. apply Forall_app. split; [now apply bytes_header|exact Bb]. }
  assert (Ls : List.length s = (9 + List.length body)%nat) by reflexivity.
  destruct (h2_full chk h [s] B) as (p & log & X & Y & _).
  { intros _. constructor; [|constructor]. rewrite Ls. transitivity 109; [lia|discriminate]. }
  assert (G : full chk [s] = (FEv (EFrameFormat len t f sid) :: e, Some (a, s))).
  { rewrite <- E at 2. apply one_awaits. rewrite E.
    pose proof (full_header chk (cut_at [s]) len t f rsv sid body L S) as H. cbv zeta in H. fold s in H.
    rewrite H, A, split_single by lia. reflexivity. }
  rewrite G in X, Y. exists p, log. now split.
Qed.

Lemma late_callbacks chk h f : wf_frame f -> ~ prompt (f_body f) ->
  exists p log late, feed chk h new [render f] = (p, log, OEos) /\ late <> [] /\ flat log ++ late = seen f.
Proof.
  intros (F & S & W & B & L) NP.
  destruct f as [fl rsv sid b]. unfold render, seen. cbn [f_flags f_stream f_body f_rsv] in *.
  assert (Q : forall pad (d : list byte), ~ (d <> [] \/ (exists z : list byte, pad = Some z /\ z <> [])) ->
    d = [] /\ (pad = None \/ pad = Some [])).
  { intros pad d N. destruct d; [|destruct N; left; discriminate]. split; [reflexivity|].
    destruct pad as [[|x z]|]; auto. destruct N. right. exists (x :: z). split; [reflexivity|discriminate]. }
  assert (fin : forall t a e late, t < 256 -> (List.length (payload b) <= 100)%nat ->
    (forall lost, full_contents chk lost (N.of_nat (List.length (payload b))) t fl (payload b) = Awaits a e) ->
    late <> [] -> e ++ late = seen_body b ->
    exists p log late, feed chk h new [render_header (N.of_nat (List.length (payload b))) t fl rsv sid ++ payload b]
      = (p, log, OEos) /\ late <> [] /\
      flat log ++ late = FEv (EFrameFormat (N.of_nat (List.length (payload b))) t fl sid) :: seen_body b).
  { intros t a e late T Lp A NE E.
    destruct (awaited chk h _ t fl rsv sid (payload b) a e L T F S B Lp A) as (p & log & X & Y).
    exists p, log, late. split; [exact X|]. split; [exact NE|]. rewrite Y, <- E. reflexivity. }
  destruct b as [pad d|pad prio d|p|c|i v|pad r s d|d|r s c d|r n|d|t pad d]; cbn [prompt] in NP;
    try (now destruct NP); cbn [type_of].
  - destruct (Q _ _ NP) as [-> P]. destruct W as [W _]. apply (fin 0 StDataData [] [FEnd KData]);
      try reflexivity; try discriminate; destruct P as [-> | ->]; cbn in *; try lia; intros lost; rewrite W; reflexivity.
  - destruct (Q _ _ NP) as [-> P]. destruct W as ([W _] & W2 & W3).
    destruct P as [-> | ->]; destruct prio as [pr|];
    [apply (fin 1 StHeadersFragment [FEv (EHeaders (pr_exclusive pr) (pr_stream pr) (pr_weight pr))] [FEnd KFragment])
    |apply (fin 1 StHeadersFragment [] [FEnd KFragment])
    |apply (fin 1 StHeadersFragment [FEv (EHeaders (pr_exclusive pr) (pr_stream pr) (pr_weight pr))] [FEnd KFragment])
    |apply (fin 1 StHeadersFragment [FEv (EHeaders false 0 0)] [FEnd KFragment])];
      try reflexivity; try discriminate; try (cbn; lia); intros lost; cbn [full_contents]; rewrite W, W2; cbn [is_some];
      try reflexivity.
    all: destruct W3 as [W3 W4]; destruct (field_prio (pr_exclusive pr) (pr_stream pr) (pr_weight pr) W3) as [X1 X2];
      destruct (bit31_bounds (pr_exclusive pr) (pr_stream pr) W3) as (_ & B1 & B2).
    all: set (P := ptext (pr_exclusive pr) (pr_stream pr) (pr_weight pr)) in *.
    all: transitivity (saying [FEv (EHeaders (2 ^ 31 <=? field P 0 4) (field P 0 4 mod 2 ^ 31) (field P 4 1))]
      (Awaits StHeadersFragment [])); [destruct chk; reflexivity|now rewrite X1, X2, B1, B2].
  - destruct (Q _ _ NP) as [-> P]. destruct W as ([W _] & W2).
    destruct P as [-> | ->];
      apply (fin 5 StPushPromiseCallback [] [FEv (EPushPromise (bit31 r s)); FEnd KFragment]);
      try reflexivity; try discriminate; try (cbn; lia); intros lost; cbn [full_contents]; rewrite W; reflexivity.
  - destruct d; [|destruct NP; discriminate]. apply (fin 6 StPingData [] [FEnd KPing]); try reflexivity; try discriminate.
    cbn; lia.
  - destruct d; [|destruct NP; discriminate]. apply (fin 9 StHeadersFragment [] [FEnd KFragment]); try reflexivity; try discriminate.
    cbn; lia.
  - destruct (Q _ _ NP) as [-> P]. destruct W as (T & W & _).
    assert (C : forall lost len s, full_contents chk lost len t fl s =
      full_pad chk (flag_padded fl) StUnsupportedPadLength len s (full_data chk StUnsupportedData KUnsupported)).
    { intros lost len s. unfold full_contents.
      destruct t as [|q]; [lia|]. do 4 (destruct q as [q|q|]; try lia; try reflexivity). }
    apply (fin t StUnsupportedData [] [FEnd KUnsupported]); try reflexivity; try discriminate;
      destruct P as [-> | ->]; cbn in *; try lia; intros lost; rewrite C, W; reflexivity.
Qed.

Lemma late_anyhow chk h f segs : wf_frame f -> ~ prompt (f_body f) ->
  List.concat segs = render f -> safe_cuts [f] segs ->
  exists p log late, feed chk h new segs = (p, log, OEos) /\ late <> [] /\ flat log ++ late = seen f.
Proof.
  intros W NP E C. destruct (late_callbacks chk h f W NP) as (p & log & late & X & NE & Y).
  destruct (h2_segments [f] [] segs [render f] chk chk h h) as (p1 & l1 & p2 & l2 & X1 & X2 & Z & _).
  - now constructor.
  - unfold render_all. cbn [map List.concat]. now rewrite E.
  - cbn [List.concat]. now rewrite E, app_nil_r.
  - exact C.
  - intros before after Q. destruct before as [|b before]; cbn [List.concat List.length].
    + cbn [fragile]. destruct (Nat.ltb_spec 0 (List.length (render f))); cbn [fragile]; [|tauto].
      unfold fragile1. destruct (f_body f); lia.
    + destruct before as [|b' before]; [|destruct before; discriminate Q].
      injection Q as Q1 _. subst b. cbn [List.concat]. rewrite app_nil_r. cbn [fragile].
      rewrite Nat.ltb_irrefl. tauto.
  - rewrite X in X2. injection X2 as <- <-. exists p1, l1, late. rewrite Z. auto.
Qed.
