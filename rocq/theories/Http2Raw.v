(* Frames given by a header and a payload of raw bytes: they are frames in the
   sense of Http2Spec.v. *)

From Coq Require Import NArith List Bool Arith String Lia.
From Verif Require Import Bytes ByteStream Http2Model Http2Spec Http2Frame Http2Cut Http2Run Http2Misc Http2Api.
Import ListNotations.
Local Open Scope N_scope.

Lemma be32_of b0 b1 b2 b3 : b0 < 256 -> b1 < 256 -> b2 < 256 -> b3 < 256 ->
  exists v, v < 2 ^ 32 /\ be32 v = [b0; b1; b2; b3].
Proof.
  intros H0 H1 H2 H3. exists (((b0 * 256 + b1) * 256 + b2) * 256 + b3).
  assert (forall x y, y < 256 -> (x * 256 + y) / 256 = x) as D.
  { intros x y Y. rewrite N.div_add_l by discriminate. rewrite (N.div_small y) by assumption. lia. }
  assert (forall x y, y < 256 -> (x * 256 + y) mod 256 = y) as M.
  { intros x y Y. rewrite N.add_comm, N.mod_add by discriminate. now apply N.mod_small. }
  change (2 ^ 32) with 4294967296. split; [nia|]. unfold be32.
  change (2 ^ 24) with (256 * (256 * 256)). change (2 ^ 16) with (256 * 256). change (2 ^ 8) with 256.
  rewrite <- !N.div_div by discriminate. rewrite !D, !M by assumption.
  now rewrite (N.mod_small b0).
Qed.

Lemma bit31_of v : v < 2 ^ 32 -> exists r s, s < 2 ^ 31 /\ v = bit31 r s.
Proof.
  intros H. destruct (N.lt_ge_cases v (2 ^ 31)) as [L|L].
  - exists false, v. split; [exact L|]. unfold bit31. lia.
  - exists true, (v - 2 ^ 31). unfold bit31. change (2 ^ 32) with (2 ^ 31 + 2 ^ 31) in H. split; lia.
Qed.

Lemma take4 (s : list byte) : bytes s -> List.length s = 4%nat ->
  exists v, v < 2 ^ 32 /\ s = be32 v.
Proof.
  intros B L. destruct s as [|b0 [|b1 [|b2 [|b3 [|? ?]]]]]; try discriminate L.
  repeat match goal with H : bytes (_ :: _) |- _ => apply Forall_cons_iff in H; destruct H
         | H : Forall _ (_ :: _) |- _ => apply Forall_cons_iff in H; destruct H end.
  destruct (be32_of b0 b1 b2 b3) as (v & V & E); auto. exists v. split; [exact V|now rewrite E].
Qed.

Lemma take5 (s : list byte) : bytes s -> List.length s = 5%nat ->
  exists p, wf_prio p /\ s = render_prio p.
Proof.
  intros B L. destruct s as [|b0 [|b1 [|b2 [|b3 [|w [|? ?]]]]]]; try discriminate L.
  change (b0 :: b1 :: b2 :: b3 :: [w]) with ([b0; b1; b2; b3] ++ [w]) in B |- *.
  apply Forall_app in B. destruct B as [B1 B2].
  destruct (take4 _ B1 eq_refl) as (v & V & E). destruct (bit31_of v V) as (r & x & X & ->).
  exists (Prio r x w). apply Forall_cons_iff in B2. destruct B2.
  split; [split; assumption|]. unfold render_prio. cbn [pr_exclusive pr_stream pr_weight].
  now rewrite <- E.
Qed.

(* The parts of a payload. *)
Lemma parts t f z (s : list byte) :
  (has_pad t f = true -> hd_error s = Some z) ->
  (if has_pad t f then 1 + z else 0) + fixed_part t f <= N.of_nat (List.length s) ->
  exists fx d pad, (if has_pad t f then s = z :: fx ++ d ++ pad /\ List.length pad = N.to_nat z
                    else s = fx ++ d) /\
    List.length fx = N.to_nat (fixed_part t f) /\ data_part t f z s = d.
Proof.
  intros HZ L. unfold data_part. destruct (has_pad t f).
  - specialize (HZ eq_refl). destruct s as [|y s]; [discriminate|]. injection HZ as ->.
    cbn [List.length] in L. set (n := fixed_part t f) in *.
    exists (firstn (N.to_nat n) s).
    exists (firstn (List.length s - N.to_nat n - N.to_nat z) (skipn (N.to_nat n) s)).
    exists (skipn (List.length s - N.to_nat n - N.to_nat z) (skipn (N.to_nat n) s)).
    split; [split|split].
    + now rewrite !firstn_skipn.
    + rewrite !skipn_length. lia.
    + rewrite firstn_length. lia.
    + replace (N.to_nat (1 + n)) with (S (N.to_nat n)) by lia. cbn [skipn List.length].
      reflexivity.
  - set (n := fixed_part t f) in *.
    exists (firstn (N.to_nat n) s), (skipn (N.to_nat n) s), [].
    split; [now rewrite firstn_skipn|]. split; [rewrite firstn_length; lia|].
    rewrite N.add_0_l. rewrite firstn_all2; [reflexivity|]. rewrite skipn_length. lia.
Qed.

Lemma raw_body t f z k s :
  t < 256 -> f < 256 -> data_kind t = Some k -> bytes s ->
  (has_pad t f = true -> hd_error s = Some z) ->
  (if has_pad t f then 1 + z else 0) + fixed_part t f <= N.of_nat (List.length s) ->
  exists b evs, type_of b = t /\ wf_body f b /\ payload b = s /\
    Forall plain evs /\ seen_body b = evs ++ reported k t (data_part t f z s).
Proof.
  intros T F K B HZ L.
  assert (has_pad t f = true -> z < 256) as Z.
  { intros H. specialize (HZ H). destruct s; [discriminate|]. injection HZ as ->.
    now apply Forall_cons_iff in B. }
  destruct (parts t f z s HZ L) as (fx & d & pad & E & Lf & ->).
  destruct (N.le_gt_cases 10 t) as [U|U].
  - assert (has_pad t f = flag_padded f) as HP.
    { destruct t as [|q]; [lia|]. repeat (destruct q as [q|q|]; try reflexivity; try lia). }
    assert (fixed_part t f = 0) as FX.
    { destruct t as [|q]; [lia|]. repeat (destruct q as [q|q|]; try reflexivity; try lia). }
    assert (k = KUnsupported) as ->.
    { destruct t as [|q]; [lia|]. repeat (destruct q as [q|q|]; try (cbn in K; congruence); try lia). }
    assert (reported KUnsupported t d = item KUnsupported d) as ->.
    { destruct t as [|q]; [lia|]. repeat (destruct q as [q|q|]; try reflexivity; try lia). }
    rewrite FX in Lf. destruct fx; [|discriminate]. rewrite HP in *.
    destruct (flag_padded f) eqn:FP; cbn [app] in E.
    + destruct E as [E LP]. exists (BUnknown t (Some pad) d), [].
      split; [reflexivity|]. split; [|split; [|split; [constructor|reflexivity]]].
      * cbn [wf_body]. split; [lia|]. split; [now rewrite FP|]. specialize (Z eq_refl). lia.
      * cbn [payload padded]. rewrite LP, N2Nat.id. now rewrite E.
    + exists (BUnknown t None d), [].
      split; [reflexivity|]. split; [|split; [|split; [constructor|reflexivity]]].
      * cbn [wf_body]. split; [lia|]. split; [now rewrite FP|exact I].
      * cbn [payload padded]. now rewrite E.
  - assert (t = 0 \/ t = 1 \/ t = 5 \/ t = 6 \/ t = 7 \/ t = 9) as C.
    { assert (t = 0 \/ t = 1 \/ t = 2 \/ t = 3 \/ t = 4 \/ t = 5 \/ t = 6 \/ t = 7 \/ t = 8 \/ t = 9) as C by lia.
      repeat destruct C as [C|C]; subst t; try discriminate K; lia. }
    repeat destruct C as [C|C]; subst t; cbn [data_kind] in K; injection K as <-;
      cbn [has_pad fixed_part] in E, Lf, Z.
    + destruct fx; [|discriminate]. cbn [app] in E. destruct (flag_padded f) eqn:FP.
      * destruct E as [E LP]. exists (BData (Some pad) d), [].
        split; [reflexivity|]. split; [|split; [|split; [constructor|reflexivity]]].
        -- cbn [wf_body]. split; [now rewrite FP|]. specialize (Z eq_refl). lia.
        -- cbn [payload padded]. rewrite LP, N2Nat.id. now rewrite E.
      * exists (BData None d), [].
        split; [reflexivity|]. split; [|split; [|split; [constructor|reflexivity]]].
        -- cbn [wf_body]. split; [now rewrite FP|exact I].
        -- cbn [payload padded]. now rewrite E.
    + assert (exists prio, flag_priority f = is_some prio /\
        match prio with Some p => wf_prio p | None => True end /\
        fx = match prio with Some p => render_prio p | None => [] end) as (prio & P1 & P2 & P3).
      { destruct (flag_priority f).
        - destruct (take5 fx) as (p & P & ->); [|exact Lf|].
          + destruct (flag_padded f); [destruct E as [-> _]|subst s].
            * apply Forall_cons_iff in B. destruct B as [_ B]. now apply Forall_app in B.
            * now apply Forall_app in B.
          + exists (Some p). auto.
        - exists None. destruct fx; [auto|discriminate]. }
      destruct (flag_padded f) eqn:FP.
      * destruct E as [E LP]. exists (BHeaders (Some pad) prio d).
        destruct prio as [p|]; [exists [FEv (EHeaders (pr_exclusive p) (pr_stream p) (pr_weight p))]
                               |exists [FEv (EHeaders false 0 0)]];
        (split; [reflexivity|]; split; [|split; [|split; [repeat constructor|reflexivity]]];
         [cbn [wf_body]; split; [split; [now rewrite FP|specialize (Z eq_refl); lia]|auto]
         |cbn [payload padded]; rewrite LP, N2Nat.id, E, P3; cbn [app]; now rewrite ?app_assoc]).
      * exists (BHeaders None prio d).
        destruct prio as [p|]; [exists [FEv (EHeaders (pr_exclusive p) (pr_stream p) (pr_weight p))]
                               |exists []];
        (split; [reflexivity|]; split; [|split; [|split; [repeat constructor|reflexivity]]];
         [cbn [wf_body]; split; [split; [now rewrite FP|exact I]|auto]
         |cbn [payload padded]; now rewrite E, P3]).
    + assert (bytes fx) as Bx.
      { destruct (flag_padded f); [destruct E as [-> _]|subst s].
        * apply Forall_cons_iff in B. destruct B as [_ B]. now apply Forall_app in B.
        * now apply Forall_app in B. }
      destruct (take4 fx Bx Lf) as (v & V & ->). destruct (bit31_of v V) as (r & x & X & ->).
      destruct (flag_padded f) eqn:FP.
      * destruct E as [E LP]. exists (BPushPromise (Some pad) r x d), [FEv (EPushPromise (bit31 r x))].
        split; [reflexivity|]. split; [|split; [|split; [repeat constructor|reflexivity]]].
        -- cbn [wf_body]. split; [split; [now rewrite FP|specialize (Z eq_refl); lia]|exact X].
        -- cbn [payload padded]. rewrite LP, N2Nat.id, E. cbn [app]. now rewrite !app_assoc.
      * exists (BPushPromise None r x d), [FEv (EPushPromise (bit31 r x))].
        split; [reflexivity|]. split; [|split; [|split; [repeat constructor|reflexivity]]].
        -- cbn [wf_body]. split; [split; [now rewrite FP|exact I]|exact X].
        -- cbn [payload padded]. now rewrite E.
    + destruct fx; [|discriminate]. exists (BPing d), [].
      split; [reflexivity|]. split; [exact I|split; [now rewrite E|split; [constructor|reflexivity]]].
    + rewrite <- (firstn_skipn 4 fx) in E. rewrite E in B. rewrite <- app_assoc in E.
      apply Forall_app in B. destruct B as [B _]. apply Forall_app in B. destruct B as [B1 B2].
      destruct (take4 _ B1) as (v & V & E1); [rewrite firstn_length, Lf; reflexivity|].
      destruct (take4 _ B2) as (c & Vc & E2); [rewrite skipn_length, Lf; reflexivity|].
      destruct (bit31_of v V) as (r & x & X & ->).
      rewrite E1, E2 in E.
      exists (BGoAway r x c d), [FEv (EGoAway x c)].
      split; [reflexivity|]. split; [|split; [|split; [repeat constructor|]]].
      * cbn [wf_body]. auto.
      * cbn [payload]. now rewrite E.
      * cbn [seen_body]. destruct d; reflexivity.
    + destruct fx; [|discriminate]. exists (BContinuation d), [].
      split; [reflexivity|]. split; [exact I|split; [now rewrite E|split; [constructor|reflexivity]]].
Qed.

(* C38 *)
Lemma h2_accounting t f z k rsv sid s v segs chk h :
  t < 256 -> f < 256 -> sid < 2 ^ 31 -> data_kind t = Some k -> bytes s ->
  N.of_nat (List.length s) < 2 ^ 24 -> v < 256 ->
  (has_pad t f = true -> hd_error s = Some z) ->
  (if has_pad t f then 1 + z else 0) + fixed_part t f <= N.of_nat (List.length s) ->
  List.concat segs = render_header (N.of_nat (List.length s)) t f rsv sid ++ s ++ [v] ->
  (forall before after, segs = before ++ after ->
     ~ fragile_raw t (List.length (List.concat before))) ->
  exists p log q logq evs,
    feed chk h new segs = (p, log, OEos) /\ Forall plain evs /\
    flat log = evs ++ reported k t (data_part t f z s) /\
    feed chk h new [[v]] = (q, logq, OEos) /\ flat logq = [] /\ same_place p q.
Proof.
  intros T F SID K B L V HZ LE E S.
  destruct (raw_body t f z k s T F K B HZ LE) as (b & evs & E1 & W & E2 & P & E3).
  set (fr := Frame f rsv sid b).
  assert (wf_frame fr) as WF.
  { unfold wf_frame, fr. cbn [f_flags f_stream f_body]. rewrite E2. auto. }
  assert (render fr = render_header (N.of_nat (List.length s)) t f rsv sid ++ s) as ER.
  { unfold render, fr. cbn [f_flags f_rsv f_stream f_body]. now rewrite E1, E2. }
  destruct (h2_frames [fr] v segs chk h) as (p & log & q & logq & C1 & C2 & C3 & C4 & C5).
  - constructor; [exact WF|constructor].
  - exact V.
  - rewrite E. unfold render_all. cbn [map List.concat]. now rewrite app_nil_r, ER, app_assoc.
  - intros x y Exy. specialize (S x y Exy). intros Fr. apply S. revert Fr.
    cbn [fragile]. destruct (_ <? _)%nat; [|tauto]. unfold fragile1, fragile_raw.
    unfold fr. cbn [f_body]. intros [G|G]; [now left|]. right. rewrite <- E1.
    destruct b; try contradiction G; cbn [type_of]; auto.
    exfalso. cbn [type_of] in E1. subst t. discriminate K.
  - eexists p, log, q, logq, (FEv _ :: evs). split; [exact C1|].
    split; [constructor; [exact I|exact P]|]. split; [|auto].
    rewrite C2. unfold seen_all. cbn [map List.concat]. rewrite app_nil_r.
    unfold seen, fr. cbn [f_body f_flags f_stream app]. f_equal. rewrite E3. f_equal.
Qed.
