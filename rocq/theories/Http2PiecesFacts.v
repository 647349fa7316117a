(* How data is handed to the handler: proofs. *)

From Coq Require Import NArith List Bool Arith String Lia.
From Verif Require Import Bytes ByteStream Http2Model Http2Spec Http2Wp Http2Term Http2Full Http2FullApi Http2Pieces.
Import ListNotations.
Local Open Scope N_scope.

(* ------------------------------------------------------------------ *)
(* One call                                                             *)
(* ------------------------------------------------------------------ *)

(* The calls l are cut out of s, all items end, and r is left. *)
Inductive cutr : list byte -> list event -> list byte -> Prop :=
| cutr_none x r : cutr (x ++ r) [] r
| cutr_other s e l r : (forall k d fin, e <> EData k d fin) -> cutr s l r -> cutr s (e :: l) r
| cutr_closed x k d y l r : cutr y l r -> cutr (x ++ d ++ y) (EData k d true :: l) r.

Lemma cut_more x s l : cut_from s l -> cut_from (x ++ s) l.
Proof.
  intros H. induction H as [s|s e l E H IH|y k d D|y k d z l H IH].
  - constructor.
  - now constructor.
  - rewrite app_assoc. now constructor.
  - rewrite app_assoc. now constructor.
Qed.

Lemma cutr_app s l r l' : cutr s l r -> cut_from r l' -> cut_from s (l ++ l').
Proof.
  intros H K. induction H as [x r|s e l r E H IH|x k d y l r H IH]; cbn [app].
  - now apply cut_more.
  - apply cut_other; auto.
  - apply cut_closed; auto.
Qed.

Lemma cutr_more x s l r : cutr s l r -> cutr (x ++ s) l r.
Proof.
  intros H. induction H as [y r|s e l r E H IH|y k d z l r H IH].
  - rewrite app_assoc. constructor.
  - now constructor.
  - rewrite app_assoc. now constructor.
Qed.

Lemma cutr_trans s l r l' r' : cutr s l r -> cutr r l' r' -> cutr s (l ++ l') r'.
Proof.
  intros H K. induction H as [x r|s e l r E H IH|x k d y l r H IH]; cbn [app].
  - now apply cutr_more.
  - apply cutr_other; auto.
  - apply cutr_closed; auto.
Qed.

Lemma cutr_cut s l r : cutr s l r -> cut_from s l.
Proof. intros H. rewrite <- (app_nil_r l). apply (cutr_app _ _ _ _ H). constructor. Qed.

(* One step. *)
Definition piece_post (m m' : mach) (o : outcome) : Prop :=
  exists x, ml m' = ml m ++ x /\
  (cutr (crest (mc m)) x (crest (mc m')) \/
   exists k d, x = [EData k d false] /\ d <> [] /\ crest (mc m) = d /\ crest (mc m') = [] /\
     exists n, o = Exit (SEos n) \/ (o = Exit (SCallback n) /\ waiting (state_fn (mp m')) = true)).

Lemma piece_none m p c o : (exists x, crest (mc m) = x ++ crest c) ->
  piece_post m (Mach p c (ml m)) o.
Proof.
  intros [x H]. exists []. split; [now rewrite app_nil_r|]. left. rewrite H. constructor.
Qed.

Lemma piece_other m p c e o : (exists x, crest (mc m) = x ++ crest c) ->
  (forall k d fin, e <> EData k d fin) ->
  piece_post m (Mach p c (ml m ++ [e])) o.
Proof.
  intros [x H] E. exists [e]. split; [reflexivity|]. left. rewrite H. constructor; [assumption|constructor].
Qed.

Lemma piece_closed m p c k d o : crest (mc m) = d ++ crest c ->
  piece_post m (Mach p c (ml m ++ [EData k d true])) o.
Proof.
  intros H. eexists. split; [reflexivity|]. left. rewrite H. apply (cutr_closed []).
  apply (cutr_none []).
Qed.

Lemma piece_open_eos m p cb mk sl k d n : crest (mc m) = d -> d <> [] ->
  piece_post m (Mach p (Ctx cb mk sl []) (ml m ++ [EData k d false])) (Exit (SEos n)).
Proof. intros H D. eexists. split; [reflexivity|]. right. exists k, d. repeat split; auto. eauto. Qed.

Lemma piece_open_cb m p cb mk sl k d n : crest (mc m) = d -> d <> [] -> waiting (state_fn p) = true ->
  piece_post m (Mach p (Ctx cb mk sl []) (ml m ++ [EData k d false])) (Exit (SCallback n)).
Proof. intros H D W. eexists. split; [reflexivity|]. right. exists k, d. repeat split; auto. eauto. Qed.

Ltac part_of :=
  cbn [crest];
  first [ exists []; reflexivity
        | match goal with H : ?r = ?x ++ ?r' |- exists x, ?r = _ ++ ?r' => exists x; exact H end
        | match goal with |- exists x, ?b0 :: ?b1 :: ?b2 :: ?b3 :: ?r = _ ++ ?r => exists [b0; b1; b2; b3]; reflexivity end
        | match goal with |- exists x, ?b0 :: ?b1 :: ?r = _ ++ ?r => exists [b0; b1]; reflexivity end
        | match goal with |- exists x, ?b0 :: ?r = _ ++ ?r => exists [b0]; reflexivity end
        | match goal with |- exists x, ?r = _ ++ [] => exists r; now rewrite app_nil_r end ].

Lemma run_fn_piece chk h m : cslice (mc m) = [] -> wp (run_fn chk h m) (piece_post m).
Proof.
  destruct m as [p [cb mk sl r] l]. cbn [mc cslice]. intros ->. unfold run_fn. cbn [mp].
  destruct (state_fn p) eqn:Efn; unfold_state.
  all: wp_all.
  all: unfold with_c, bs_jump; cbn [mp mc ml crest cslice cmark cbyte].
  all: first
   [ apply (piece_none (Mach _ (Ctx _ _ _ _) l)); cbn [mc]; part_of
   | apply (piece_other (Mach _ (Ctx _ _ _ _) l)); [cbn [mc]; part_of|discriminate]
   | apply (piece_closed (Mach _ (Ctx _ _ _ _) l)); cbn [mc crest app]; assumption
   | apply (piece_open_eos (Mach _ (Ctx _ _ _ _) l)); [reflexivity|discriminate]
   | apply (piece_open_cb (Mach _ (Ctx _ _ _ _) l)); [reflexivity|discriminate|cbn; rewrite Efn; reflexivity] ].
Qed.

Lemma parse_piece chk h fuel : forall m m' r, cslice (mc m) = [] -> parse fuel chk h m = (m', r) ->
  exists x, ml m' = ml m ++ x /\
  (cutr (crest (mc m)) x (crest (mc m')) \/
   cut_from (crest (mc m)) x /\ crest (mc m') = [] /\
     exists n, r = ROk (SEos n) \/ (r = ROk (SCallback n) /\ waiting (state_fn (mp m')) = true)).
Proof.
  induction fuel as [|fuel IH]; intros m m' r Z E; cbn [parse] in E.
  - injection E as <- <-. exists []. split; [now rewrite app_nil_r|]. left. apply (cutr_none []).
  - destruct (run_fn chk h m) as [m1 o] eqn:R.
    destruct (wp_run _ _ (run_fn_piece chk h m Z) _ _ R) as (x & X1 & X2).
    pose proof (wp_run _ _ (run_fn_step chk h m) _ _ R) as St.
    destruct o as [|s|e|f].
    + destruct X2 as [X2|(k & d & _ & _ & _ & _ & n & [A|[A _]])]; try discriminate A.
      destruct (IH _ _ _ (proj2 (proj2 (proj2 (proj2 St)))) E) as (y & Y1 & Y2). exists (x ++ y).
      split; [now rewrite Y1, X1, app_assoc|]. destruct Y2 as [Y2|(Y2 & Y3)].
      * left. exact (cutr_trans _ _ _ _ _ X2 Y2).
      * right. split; [exact (cutr_app _ _ _ _ X2 Y2)|exact Y3].
    + injection E as <- <-. exists x. split; [exact X1|]. destruct X2 as [X2|(k & d & -> & D & X2 & X3 & n & N)]; [now left|].
      right. cbn [mc with_p mp]. rewrite X2. split; [apply (cut_open []); exact D|]. split; [exact X3|].
      exists n. destruct N as [N|[N W]]; injection N as ->; [now left|]. right. split; [reflexivity|]. exact W.
    + injection E as <- <-. exists x. split; [exact X1|]. destruct X2 as [X2|(k & d & _ & _ & _ & _ & n & [A|[A _]])]; try discriminate A. now left.
    + injection E as <- <-. exists x. split; [exact X1|]. destruct X2 as [X2|(k & d & _ & _ & _ & _ & n & [A|[A _]])]; try discriminate A. now left.
Qed.

Lemma parse_index chk h fuel : forall m m' n, cslice (mc m) = [] ->
  parse fuel chk h m = (m', ROk (SCallback n)) ->
  crest (mc m') = skipn (n - cindex (mc m)) (crest (mc m)) /\ (cindex (mc m) <= n)%nat.
Proof.
  induction fuel as [|fuel IH]; intros m m' n Z E; cbn [parse] in E; [discriminate E|].
  destruct (run_fn chk h m) as [m1 o] eqn:R.
  pose proof (wp_run _ _ (run_fn_step chk h m) _ _ R) as ((x & X1 & X2) & St).
  destruct o as [|s|e|f]; try discriminate E.
  - destruct (IH _ _ _ (proj2 (proj2 (proj2 St))) E) as [Y1 Y2]. rewrite X2 in Y1, Y2.
    split; [|lia]. rewrite X1, skipn_app, (skipn_all2 x) by lia. cbn [app]. rewrite Y1. f_equal. lia.
  - injection E as <- E2. destruct s as [k|k|k]; try discriminate E2. injection E2 as ->.
    destruct St as (-> & _). cbn [mc with_p]. rewrite X1, X2. split; [|lia].
    rewrite skipn_app, (skipn_all2 x) by lia. cbn [app].
    replace (cindex (mc m) + List.length x - cindex (mc m) - List.length x)%nat with 0%nat by lia. reflexivity.
Qed.

Lemma resume_piece chk h p log s p' log' r : resume chk h p log s = (p', log', r) ->
  exists x, log' = log ++ x /\ cut_from s x /\
    forall n, r = ROk (SCallback n) -> cutr s x (skipn n s) \/ (skipn n s = [] /\ waiting (state_fn p') = true).
Proof.
  unfold resume. destruct (parse _ _ _ _) as [m r0] eqn:P. intros [= <- <- <-].
  destruct (parse_piece _ _ _ (Mach p (bs_new s) log) _ _ eq_refl P) as (x & X1 & X2). cbn [ml mc bs_new crest] in *.
  exists x. split; [exact X1|]. split.
  { destruct X2 as [X2|[X2 _]]; [exact (cutr_cut _ _ _ X2)|exact X2]. }
  intros n ->. destruct (parse_index _ _ _ (Mach p (bs_new s) log) _ _ eq_refl P) as [I _].
  cbn [mc bs_new crest cindex cmark cslice List.length] in I. rewrite Nat.sub_0_r in I. rewrite <- I.
  destruct X2 as [X2|(_ & X3 & k & [N|[N W]])]; [now left|discriminate N|]. now right.
Qed.

(* Nothing happens when nothing is fed. *)
Lemma resume_nothing chk h p log : waiting (state_fn p) = true ->
  exists p', resume chk h p log [] = (p', log, ROk (SEos 0)).
Proof.
  intros W. unfold resume, fuel_of. cbn [List.length Nat.mul Nat.add parse].
  assert (run_fn chk h (Mach p (bs_new []) log) = (Mach p (bs_new []) log, Exit (SEos 0))) as ->.
  { unfold run_fn. cbn [mp]. destruct (state_fn p); try discriminate W; reflexivity. }
  eexists. reflexivity.
Qed.

(* ------------------------------------------------------------------ *)
(* All pieces                                                           *)
(* ------------------------------------------------------------------ *)

Lemma client_more chk h : forall f f' p log segs p' log' o,
  client f chk h p log segs = (p', log', o) -> o <> OFuel -> (f <= f')%nat ->
  client f' chk h p log segs = (p', log', o).
Proof.
  induction f as [|f IH]; intros f' p log segs p' log' o E N L.
  - destruct segs; cbn [client] in E; [destruct f'; exact E|congruence].
  - destruct segs as [|s segs]; [destruct f'; exact E|]. destruct f' as [|f']; [lia|].
    cbn [client] in *. destruct (resume chk h p log s) as [[p1 log1] [[n|n|n]|e|ft|]]; try exact E.
    + apply IH; auto. lia.
    + apply IH; auto. lia.
Qed.

Lemma client_parts chk h : forall f p log segs p' log' o,
  client f chk h p log segs = (p', log', o) -> o <> OFuel ->
  exists parts, log' = log ++ List.concat parts /\ Forall2 cut_from segs parts /\
    forall i, exists pi oi,
      client f chk h p log (firstn i segs) = (pi, log ++ List.concat (firstn i parts), oi) /\ oi <> OFuel.
Proof.
  induction f as [f IH] using lt_wf_ind. intros p log segs p' log' o E N.
  destruct segs as [|s segs].
  { exists []. assert (p' = p /\ log' = log) as [-> ->] by (destruct f; cbn [client] in E; split; congruence).
    cbn. rewrite app_nil_r. repeat split; [constructor|]. intros i. exists p, OEos.
    rewrite !firstn_nil. cbn. rewrite app_nil_r. destruct f; (split; [reflexivity|discriminate]). }
  destruct f as [|f]; [cbn [client] in E; congruence|].
  cbn [client] in E. destruct (resume chk h p log s) as [[p1 log1] r] eqn:R.
  destruct (resume_piece _ _ _ _ _ _ _ _ R) as (x & -> & X2 & X3).
  assert (forall p2 o2, o2 <> OFuel ->
    (forall i, exists pi oi, client (S f) chk h p log (firstn i (s :: segs)) = (pi, log ++ x, oi) /\ oi <> OFuel \/ i = 0%nat) ->
    (p2, log ++ x, o2) = (p', log', o) ->
    exists parts, log' = log ++ List.concat parts /\ Forall2 cut_from (s :: segs) parts /\
    forall i, exists pi oi,
      client (S f) chk h p log (firstn i (s :: segs)) = (pi, log ++ List.concat (firstn i parts), oi) /\ oi <> OFuel) as Stop.
  { intros p2 o2 N2 C E2. injection E2 as <- <- <-. exists (x :: map (fun _ => []) segs).
    assert (forall l : list (list byte), List.concat (map (fun _ => @nil event) l) = []) as Z.
    { induction l; [reflexivity|assumption]. }
    cbn [List.concat]. rewrite Z, app_nil_r. split; [reflexivity|]. split.
    - constructor; [exact X2|]. clear. induction segs; constructor; [constructor|assumption].
    - intros [|i].
      + exists p, OEos. cbn. rewrite app_nil_r. split; [reflexivity|discriminate].
      + destruct (C (S i)) as (pi & oi & [C1|C1]); [|discriminate C1]. exists pi, oi.
        cbn [firstn List.concat] in *. rewrite firstn_map, Z, app_nil_r. exact C1. }
  destruct r as [[n|n|n]|e|ft|].
  - (* Callback *)
    destruct (X3 n eq_refl) as [Y|[Y W]].
    + destruct (IH f ltac:(lia) _ _ _ _ _ _ E N) as (parts & P1 & P2 & P3).
      inversion P2 as [|s' q segs' ps Q1 Q2]; subst s' segs' parts.
      exists ((x ++ q) :: ps). cbn [List.concat] in *. rewrite P1, !app_assoc. split; [reflexivity|]. split.
      { constructor; [exact (cutr_app _ _ _ _ Y Q1)|exact Q2]. }
      intros [|i].
      * exists p, OEos. cbn. rewrite app_nil_r. split; [reflexivity|discriminate].
      * destruct (P3 (S i)) as (pi & oi & C1 & C2). exists pi, oi.
        cbn [firstn client List.concat] in *. rewrite R. rewrite !app_assoc in *. split; [exact C1|exact C2].
    + destruct (resume_nothing chk h p1 (log ++ x) W) as (p2 & R2).
      rewrite Y in E. destruct f as [|f]; [cbn [client] in E; congruence|]. cbn [client] in E. rewrite R2 in E.
      destruct (IH f ltac:(lia) _ _ _ _ _ _ E N) as (parts & P1 & P2 & P3).
      exists (x :: parts). cbn [List.concat]. rewrite P1, app_assoc. split; [reflexivity|]. split; [now constructor|].
      intros [|i].
      * exists p, OEos. cbn. rewrite app_nil_r. split; [reflexivity|discriminate].
      * destruct (P3 i) as (pi & oi & C1 & C2). exists pi, oi.
        cbn [firstn client List.concat]. rewrite R, Y. rewrite R2. rewrite app_assoc. split; [exact C1|exact C2].
  - (* Eos *)
    destruct (IH f ltac:(lia) _ _ _ _ _ _ E N) as (parts & P1 & P2 & P3).
    exists (x :: parts). cbn [List.concat]. rewrite P1, app_assoc. split; [reflexivity|]. split; [now constructor|].
    intros [|i].
    + exists p, OEos. cbn. rewrite app_nil_r. split; [reflexivity|discriminate].
    + destruct (P3 i) as (pi & oi & C1 & C2). exists pi, oi.
      cbn [firstn client List.concat]. rewrite R. rewrite app_assoc. split; [exact C1|exact C2].
  - apply (Stop p1 OFinished); [discriminate| |exact E].
    intros [|i]; [exists p, OEos; now right|]. exists p1, OFinished. left. cbn [firstn client]. rewrite R. split; [reflexivity|discriminate].
  - apply (Stop p1 (OError e)); [discriminate| |exact E].
    intros [|i]; [exists p, OEos; now right|]. exists p1, (OError e). left. cbn [firstn client]. rewrite R. split; [reflexivity|discriminate].
  - apply (Stop p1 (OFault ft)); [discriminate| |exact E].
    intros [|i]; [exists p, OEos; now right|]. exists p1, (OFault ft). left. cbn [firstn client]. rewrite R. split; [reflexivity|discriminate].
  - congruence.
Qed.

Lemma calls_firstn : forall segs i, (calls (firstn i segs) <= calls segs)%nat.
Proof.
  induction segs as [|s segs IH]; intros [|i]; cbn [firstn calls]; try lia. specialize (IH i). lia.
Qed.

Lemma concat_firstn_bytes : forall segs i, bytes (List.concat segs) -> bytes (List.concat (firstn i segs)).
Proof.
  induction segs as [|s segs IH]; intros [|i] B; cbn [firstn List.concat] in *; try constructor; try assumption.
  unfold bytes in *. apply Forall_app in B. destruct B. apply Forall_app. split; [assumption|]. now apply IH.
Qed.

Lemma forall_firstn {A} (P : A -> Prop) : forall l i, Forall P l -> Forall P (firstn i l).
Proof.
  induction l as [|a l IH]; intros [|i] F; cbn [firstn]; try constructor; inversion F; subst; auto.
Qed.

Lemma h2_pieces chk h segs p log o :
  bytes (List.concat segs) ->
  (chk = false -> Forall (fun s => N.of_nat (List.length s) <= 2 ^ 24 - 256) segs) ->
  feed chk h new segs = (p, log, o) ->
  exists parts, log = List.concat parts /\ Forall2 cut_from segs parts /\
    forall i, flat (List.concat (firstn i parts)) = fst (full chk (firstn i segs)).
Proof.
  intros B S F.
  assert (o <> OFuel) as N.
  { destruct (h2_full chk h segs B S) as (q & lg & G & _). rewrite F in G. injection G as -> -> ->.
    destruct (snd (full chk segs)); discriminate. }
  unfold feed in F. destruct (client_parts _ _ _ _ _ _ _ _ _ F N) as (parts & P1 & P2 & P3).
  exists parts. split; [exact P1|]. split; [exact P2|]. intros i.
  destruct (P3 i) as (pi & oi & C & _). cbn [app] in C.
  destruct (h2_full chk h (firstn i segs) (concat_firstn_bytes _ _ B)) as (q & lg & G1 & G2 & _).
  { intros K. apply forall_firstn. auto. }
  unfold feed in G1.
  apply client_more with (f' := calls segs) in G1;
    [|destruct (snd (full chk (firstn i segs))); discriminate|apply calls_firstn].
  rewrite C in G1. injection G1 as _ <- _. exact G2.
Qed.

(* ------------------------------------------------------------------ *)
(* The calls are determined                                             *)
(* ------------------------------------------------------------------ *)

Inductive tidy : list event -> Prop :=
| tidy_none : tidy []
| tidy_other e l : (forall k d fin, e <> EData k d fin) -> tidy l -> tidy (e :: l)
| tidy_open k d : d <> [] -> tidy [EData k d false]
| tidy_closed k d l : tidy l -> tidy (EData k d true :: l).

Lemma cut_tidy s l : cut_from s l -> tidy l.
Proof.
  intros H. induction H; [apply tidy_none|apply tidy_other|apply tidy_open|apply tidy_closed]; assumption.
Qed.

Lemma flat_other e l : (forall k d fin, e <> EData k d fin) -> flat (e :: l) = FEv e :: flat l.
Proof. intros E. destruct e; try reflexivity. exfalso. eapply E. reflexivity. Qed.

Lemma flat_data k d fin l :
  flat (EData k d fin :: l) = map (FByte k) d ++ (if fin then [FEnd k] else []) ++ flat l.
Proof. unfold flat. cbn [flat_map flat1]. now rewrite app_assoc. Qed.

Lemma no_end k k' (d : list byte) : ~ In (FEnd k) (map (FByte k') d).
Proof. intros I. apply in_map_iff in I. destruct I as (x & X & _). discriminate X. Qed.

Lemma closed_eq : forall (d d' : list byte) k k' x x',
  map (FByte k) d ++ FEnd k :: x = map (FByte k') d' ++ FEnd k' :: x' -> k = k' /\ d = d' /\ x = x'.
Proof.
  induction d as [|b d IH]; intros [|b' d'] k k' x x' E; cbn [map app] in E; try discriminate E.
  - injection E as -> ->. auto.
  - injection E as <- <- E. apply IH in E. destruct E as (_ & -> & ->). auto.
Qed.

Lemma open_eq : forall (d d' : list byte) k k', d <> [] ->
  map (FByte k) d = map (FByte k') d' -> k = k' /\ d = d'.
Proof.
  induction d as [|b d IH]; intros [|b' d'] k k' N E; cbn [map] in E; try discriminate E; [congruence|].
  injection E as <- <- E. split; [reflexivity|]. f_equal.
  destruct d as [|c d]; [destruct d'; [reflexivity|discriminate E]|]. now apply (IH d' k k).
Qed.

Lemma tidy_flat : forall l, tidy l -> forall l', tidy l' -> flat l = flat l' -> l = l'.
Proof.
  intros l H. induction H as [|e l E H IH|k d D|k d l H IH]; intros l' H' F.
  - inversion H' as [|e' m E' M|k' d' D'|k' d' m M]; subst; [reflexivity|..].
    + rewrite flat_other in F by assumption. discriminate F.
    + rewrite flat_data in F. destruct d'; [congruence|discriminate F].
    + rewrite flat_data in F. destruct d'; discriminate F.
  - rewrite flat_other in F by assumption. inversion H' as [|e' m E' M|k' d' D'|k' d' m M]; subst.
    + discriminate F.
    + rewrite flat_other in F by assumption. injection F as <- F. f_equal. auto.
    + rewrite flat_data in F. destruct d'; [congruence|discriminate F].
    + rewrite flat_data in F. destruct d'; discriminate F.
  - rewrite flat_data in F. cbn [app flat flat_map] in F. rewrite app_nil_r in F.
    inversion H' as [|e' m E' M|k' d' D'|k' d' m M]; subst.
    + destruct d; [congruence|discriminate F].
    + rewrite flat_other in F by assumption. destruct d; [congruence|discriminate F].
    + rewrite flat_data in F. cbn [app flat flat_map] in F. rewrite app_nil_r in F.
      apply open_eq in F; [|assumption]. destruct F as [-> ->]. reflexivity.
    + rewrite flat_data in F. exfalso. apply (no_end k' k d). rewrite F. apply in_app_iff. right. now left.
  - rewrite flat_data in F. inversion H' as [|e' m E' M|k' d' D'|k' d' m M]; subst.
    + destruct d; discriminate F.
    + rewrite flat_other in F by assumption. destruct d; discriminate F.
    + rewrite flat_data in F. cbn [app flat flat_map] in F. rewrite app_nil_r in F.
      exfalso. apply (no_end k k' d'). rewrite <- F. apply in_app_iff. right. now left.
    + rewrite flat_data in F. cbn [app] in F. apply closed_eq in F. destruct F as (-> & -> & F). f_equal. auto.
Qed.

Lemma parts_eq : forall (segs : list (list byte)) parts parts',
  Forall2 cut_from segs parts -> Forall2 cut_from segs parts' ->
  (forall i, flat (List.concat (firstn i parts)) = flat (List.concat (firstn i parts'))) -> parts = parts'.
Proof.
  induction segs as [|s segs IH]; intros parts parts' H H' F;
    inversion H as [|? a ? ps A Ps]; inversion H' as [|? a' ? ps' A' Ps']; subst; [reflexivity|].
  assert (a = a') as ->.
  { apply (tidy_flat a (cut_tidy _ _ A) a' (cut_tidy _ _ A')).
    specialize (F 1%nat). cbn [firstn List.concat] in F. now rewrite !app_nil_r in F. }
  f_equal. apply IH; auto. intros i. specialize (F (Datatypes.S i)). cbn [firstn List.concat] in F.
  unfold flat in *. rewrite !flat_map_app in F. now apply app_inv_head in F.
Qed.

Lemma h2_same_calls chk h h' segs :
  bytes (List.concat segs) ->
  (chk = false -> Forall (fun s => N.of_nat (List.length s) <= 2 ^ 24 - 256) segs) ->
  snd (fst (feed chk h new segs)) = snd (fst (feed chk h' new segs)) /\
  snd (feed chk h new segs) = snd (feed chk h' new segs).
Proof.
  intros B S.
  destruct (h2_full chk h segs B S) as (q & log & G & _).
  destruct (h2_full chk h' segs B S) as (q' & log' & G' & _).
  rewrite G, G'. cbn [fst snd]. split; [|reflexivity].
  destruct (h2_pieces _ _ _ _ _ _ B S G) as (parts & -> & P1 & P2).
  destruct (h2_pieces _ _ _ _ _ _ B S G') as (parts' & -> & P1' & P2').
  f_equal. apply (parts_eq segs); auto. intros i. now rewrite P2, P2'.
Qed.

Lemma h2_data_in_piece chk h p log s p' log' r : resume chk h p log s = (p', log', r) ->
  exists x, log' = log ++ x /\ cut_from s x.
Proof. intros R. destruct (resume_piece _ _ _ _ _ _ _ _ R) as (x & X1 & X2 & _). eauto. Qed.
