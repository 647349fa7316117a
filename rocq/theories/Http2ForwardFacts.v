(* What is written for the frames told is read the same way again. *)

From Coq Require Import NArith List Bool Arith String Lia.
From Verif Require Import Bytes Http2Model Http2Spec Http2Api Http2Any Http2AnyFacts Http2AnyApi Http2Full Http2FullApi
  Http2Extends Http2Forward.
Import ListNotations.
Local Open Scope N_scope.

(* ------------------------------------------------------------------ *)
(* Numbers                                                              *)
(* ------------------------------------------------------------------ *)

Lemma num_be32 v : v < 2 ^ 32 -> num (be32 v) = v.
Proof.
  intros V. assert (B : bytes (be32 v)).
  { repeat constructor; apply N.mod_lt; discriminate. }
  unfold be32. rewrite num4.
  assert (v / 2 ^ 24 < 256) as H by (apply N.div_lt_upper_bound; [discriminate|exact V]).
  rewrite (N.mod_small (v / 2 ^ 24)) by exact H.
  change (2 ^ 24) with (256 * (256 * 256)). change (2 ^ 16) with (256 * 256). change (2 ^ 8) with 256.
  rewrite <- !N.div_div by discriminate.
  pose proof (N.div_mod v 256 ltac:(discriminate)).
  pose proof (N.div_mod (v / 256) 256 ltac:(discriminate)).
  pose proof (N.div_mod (v / 256 / 256) 256 ltac:(discriminate)).
  lia.
Qed.

Lemma num_be24 v : v < 2 ^ 24 -> num (be24 v) = v.
Proof.
  intros V. unfold be24, num. cbn [fold_left].
  assert (v / 2 ^ 16 < 256) as H by (apply N.div_lt_upper_bound; [discriminate|exact V]).
  rewrite (N.mod_small (v / 2 ^ 16)) by exact H.
  change (2 ^ 16) with (256 * 256). change (2 ^ 8) with 256.
  rewrite <- !N.div_div by discriminate.
  pose proof (N.div_mod v 256 ltac:(discriminate)).
  pose proof (N.div_mod (v / 256) 256 ltac:(discriminate)).
  lia.
Qed.

Lemma num_be16 v : v < 2 ^ 16 -> num (be16 v) = v.
Proof.
  intros V. unfold be16, num. cbn [fold_left].
  assert (v / 2 ^ 8 < 256) as H by (apply N.div_lt_upper_bound; [discriminate|exact V]).
  rewrite (N.mod_small (v / 2 ^ 8)) by exact H.
  change (2 ^ 8) with 256.
  pose proof (N.div_mod v 256 ltac:(discriminate)).
  lia.
Qed.

Lemma be32_bytes v : bytes (be32 v).
Proof. repeat constructor; apply N.mod_lt; discriminate. Qed.
Lemma be24_bytes v : bytes (be24 v).
Proof. repeat constructor; apply N.mod_lt; discriminate. Qed.
Lemma be16_bytes v : bytes (be16 v).
Proof. repeat constructor; apply N.mod_lt; discriminate. Qed.

Lemma bit31_bounds b v : v < 2 ^ 31 ->
  bit31 b v < 2 ^ 32 /\ (2 ^ 31 <=? bit31 b v) = b /\ bit31 b v mod 2 ^ 31 = v.
Proof.
  intros V. unfold bit31. destruct b.
  - split; [change (2 ^ 32) with (2 ^ 31 + 2 ^ 31); lia|]. split; [apply N.leb_le; lia|].
    rewrite <- N.add_mod_idemp_l by discriminate. change ((2 ^ 31) mod 2 ^ 31) with 0. now apply N.mod_small.
  - split; [change (2 ^ 32) with (2 ^ 31 + 2 ^ 31); lia|]. split; [apply N.leb_gt; lia|].
    now apply N.mod_small.
Qed.

Lemma num_bound s : bytes s -> num s < 256 ^ N.of_nat (List.length s).
Proof.
  unfold num. assert (forall s n k, bytes s -> n < 256 ^ k ->
    fold_left (fun n b => n * 256 + b) s n < 256 ^ (k + N.of_nat (List.length s))) as H.
  { clear s. induction s as [|b s IH]; intros n k B K; cbn [fold_left List.length].
    - now rewrite N.add_0_r.
    - inversion B as [|? ? B1 B2]; subst. replace (k + N.of_nat (S (List.length s))) with ((k + 1) + N.of_nat (List.length s)) by lia.
      apply IH; [exact B2|]. rewrite N.pow_add_r. change (256 ^ 1) with 256. nia. }
  intros B. now apply (H s 0 0).
Qed.

Lemma field_bound s i n k : bytes s -> k = 256 ^ N.of_nat n -> field s i n < k.
Proof.
  intros B ->. unfold field. pose proof (bytes_cut i s B) as [_ B']. pose proof (bytes_cut n _ B') as [B'' _].
  eapply N.lt_le_trans; [apply (num_bound _ B'')|]. apply N.pow_le_mono_r; [discriminate|].
  rewrite firstn_length. lia.
Qed.
Lemma field4 s i : bytes s -> field s i 4 < 2 ^ 32. Proof. intros B. now apply field_bound. Qed.
Lemma field3 s i : bytes s -> field s i 3 < 2 ^ 24. Proof. intros B. now apply field_bound. Qed.
Lemma field2 s i : bytes s -> field s i 2 < 2 ^ 16. Proof. intros B. now apply field_bound. Qed.
Lemma field1 s i : bytes s -> field s i 1 < 256. Proof. intros B. now apply field_bound. Qed.

(* ------------------------------------------------------------------ *)
(* Contents                                                             *)
(* ------------------------------------------------------------------ *)

Definition inner (ev : fevent) : Prop :=
  match ev with FEv (EFrameFormat _ _ _ _) => False | _ => True end.

Lemma text_item f k d : flat_map (text f) (item k d) = d.
Proof.
  unfold item. rewrite flat_map_app. cbn [flat_map text app]. rewrite app_nil_r.
  induction d as [|b d IH]; [reflexivity|]. cbn [map flat_map text app]. now rewrite IH.
Qed.
Lemma inner_item k d : Forall inner (item k d).
Proof. unfold item. apply Forall_app. split; [|now repeat constructor]. induction d; now constructor. Qed.

Lemma zeros_length z : List.length (zeros z) = N.to_nat z.
Proof. apply repeat_length. Qed.

Lemma fixed_take k x s use : List.length x = k -> fixed k (x ++ s) use = use x s.
Proof.
  intros L. unfold fixed. rewrite firstn_app_l, skipn_app_l by exact L.
  destruct (Nat.ltb_spec (List.length (x ++ s)) k) as [H|_]; [rewrite app_length in H; lia|reflexivity].
Qed.


Lemma frame_eq e r e' r' : Http2Full.Frame e r = Http2Full.Frame e' r' -> e = e' /\ r = r'.
Proof. intros [= -> ->]. now split. Qed.

Lemma saying_inv e0 q e r : saying e0 q = Http2Full.Frame e r -> exists e1, q = Http2Full.Frame e1 r /\ e = e0 ++ e1.
Proof. destruct q; cbn [saying]; intros E; try discriminate E. injection E as <- <-. eauto. Qed.

Lemma fields_inv ats s use e r : bytes s -> fields ats s use = Http2Full.Frame e r ->
  exists x s', s = x ++ s' /\ List.length x = List.length ats /\ bytes x /\ bytes s' /\ use x s' = Http2Full.Frame e r.
Proof.
  intros B. unfold fields. destruct (nth_error ats (List.length s)) eqn:E; [discriminate|].
  apply nth_error_None in E. intros H.
  exists (firstn (List.length ats) s), (skipn (List.length ats) s). rewrite firstn_skipn.
  pose proof (bytes_cut (List.length ats) s B) as [B1 B2].
  repeat split; try assumption. now rewrite firstn_length_le.
Qed.

Lemma less_inv len k use e r : less true len k use = Http2Full.Frame e r ->
  k <= len /\ use (len - k) = Http2Full.Frame e r.
Proof. unfold less. destruct (N.leb_spec k len); [now split|discriminate]. Qed.

Lemma data_inv a k len z s e r : bytes s -> full_data true a k len z s = Http2Full.Frame e r ->
  z <= len /\ exists d, e = item k d /\ N.of_nat (List.length d) = len - z /\ bytes d /\ bytes r /\
    (d = [] -> z = 0 -> r <> []).
Proof.
  intros B. unfold full_data. destruct s as [|b s]; [discriminate|]. remember (b :: s) as u eqn:Hu.
  intros E. apply less_inv in E. destruct E as [Z E]. split; [exact Z|].
  destruct (N.ltb_spec (N.of_nat (List.length u)) (len - z)) as [L|L]; [discriminate|].
  apply saying_inv in E. destruct E as (e1 & E & ->). unfold pad_bytes in E.
  destruct (N.ltb_spec (N.of_nat (List.length (skipn (N.to_nat (len - z)) u))) z) as [M|M]; [discriminate|].
  injection E as <- <-. rewrite app_nil_r.
  pose proof (bytes_cut (N.to_nat (len - z)) u B) as [B1 B2].
  exists (firstn (N.to_nat (len - z)) u). split; [reflexivity|].
  split; [rewrite firstn_length; lia|]. split; [exact B1|]. split; [apply bytes_cut; exact B2|].
  intros D ->. rewrite Hu in D. destruct (N.to_nat (len - 0)); [|discriminate D]. rewrite Hu. discriminate.
Qed.

Lemma data_again k len z (d tl : list byte) : z <= len -> N.of_nat (List.length d) = len - z ->
  (d = [] -> z = 0 -> tl <> []) ->
  data k len z (d ++ zeros z ++ tl) = Whole (item k d) tl.
Proof.
  intros Z L NN. unfold data.
  assert (NE : d ++ zeros z ++ tl <> []).
  { intros X. apply app_eq_nil in X. destruct X as [D X]. apply app_eq_nil in X. destruct X as [R T].
    apply NN; [exact D| |exact T]. apply (f_equal (@List.length byte)) in R. rewrite zeros_length in R.
    cbn [List.length] in R. lia. }
  destruct (d ++ zeros z ++ tl) as [|b s] eqn:E; [congruence|]. rewrite <- E. clear b s E NE.
  destruct (N.ltb_spec len z) as [|_]; [lia|].
  destruct (N.ltb_spec (N.of_nat (List.length (d ++ zeros z ++ tl))) (len - z)) as [X|_].
  { rewrite app_length in X. unfold byte in *. lia. }
  assert (Ln : List.length d = N.to_nat (len - z)) by (rewrite <- L, Nnat.Nat2N.id; reflexivity).
  cbv zeta. rewrite firstn_app_l, skipn_app_l by exact Ln. unfold padding.
  destruct (N.ltb_spec (N.of_nat (List.length (zeros z ++ tl))) z) as [X|_].
  { rewrite app_length, zeros_length in X. lia. }
  rewrite skipn_app_l by apply zeros_length. cbn [say]. now rewrite app_nil_r.
Qed.

Lemma pad_inv padded a len s use e r : bytes s -> full_pad true padded a len s use = Http2Full.Frame e r ->
  exists l z s', bytes s' /\ z < 256 /\ use l z s' = Http2Full.Frame e r /\
    (padded = true -> 1 <= len /\ l = len - 1) /\ (padded = false -> l = len /\ z = 0).
Proof.
  intros B. unfold full_pad. destruct padded.
  - destruct s as [|z s]; [discriminate|]. intros E. apply less_inv in E. destruct E as [L E].
    inversion B; subst. exists (len - 1), z, s. repeat split; auto; discriminate.
  - intros E. exists len, 0, s. repeat split; auto; discriminate.
Qed.

Lemma pad_again len t f c l z use tl :
  (has_pad t f = true -> 1 <= len /\ l = len - 1) -> (has_pad t f = false -> l = len /\ z = 0) ->
  N.of_nat (List.length (flat_map (text f) c)) + z = l ->
  pad_length (has_pad t f) len (payload_written len t f c ++ tl) use =
  use l z (flat_map (text f) c ++ zeros z ++ tl).
Proof.
  intros P1 P2 L. unfold pad_length, payload_written. destruct (has_pad t f).
  - destruct (P1 eq_refl) as [Q ->]. cbv zeta.
    replace (len - 1 - N.of_nat (List.length (flat_map (text f) c))) with z by (unfold byte in *; lia).
    cbn [app]. destruct (N.eqb_spec len 0); [lia|]. now rewrite <- app_assoc.
  - destruct (P2 eq_refl) as [-> ->]. reflexivity.
Qed.

Lemma pad_bytes_written len t f c l z :
  (has_pad t f = true -> 1 <= len /\ l = len - 1) -> (has_pad t f = false -> l = len /\ z = 0) ->
  N.of_nat (List.length (flat_map (text f) c)) + z = l -> z < 256 ->
  bytes (flat_map (text f) c) -> bytes (payload_written len t f c).
Proof.
  intros P1 P2 L Z B. unfold payload_written. destruct (has_pad t f); [|exact B].
  destruct (P1 eq_refl) as [Q ->]. cbv zeta.
  replace (len - 1 - N.of_nat (List.length (flat_map (text f) c))) with z by (unfold byte in *; lia).
  constructor; [exact Z|]. apply Forall_app. split; [exact B|].
  apply Forall_forall. intros x X. apply repeat_spec in X. now subst x.
Qed.

Definition again (len t f : N) (c : list fevent) (r : list byte) : Prop :=
  Forall inner c /\ bytes r /\ bytes (payload_written len t f c) /\
  forall tl, (tl = [] -> r = []) -> contents len t f (payload_written len t f c ++ tl) = Whole c tl.

(* Frames that consist of padded data, after what else is told. *)
Lemma again_data len t f l z pre k d r use :
  (has_pad t f = true -> 1 <= len /\ l = len - 1) -> (has_pad t f = false -> l = len /\ z = 0) -> z < 256 ->
  N.of_nat (List.length (flat_map (text f) pre)) + N.of_nat (List.length d) + z = l ->
  Forall inner pre -> bytes r -> bytes d -> bytes (flat_map (text f) pre) ->
  (d = [] -> z = 0 -> r <> []) ->
  (forall s, contents len t f s = pad_length (has_pad t f) len s use) ->
  (forall tl, d ++ zeros z ++ tl <> [] ->
     use l z (flat_map (text f) pre ++ d ++ zeros z ++ tl) =
     say pre (data k (l - N.of_nat (List.length (flat_map (text f) pre))) z (d ++ zeros z ++ tl))) ->
  again len t f (pre ++ item k d) r.
Proof.
  intros P1 P2 Z L I Br Bd Bp NE C U.
  assert (Ft : flat_map (text f) (pre ++ item k d) = flat_map (text f) pre ++ d).
  { rewrite flat_map_app, text_item. reflexivity. }
  assert (Lt : N.of_nat (List.length (flat_map (text f) (pre ++ item k d))) + z = l).
  { rewrite Ft, app_length. unfold byte in *. lia. }
  split; [apply Forall_app; split; [exact I|apply inner_item]|]. split; [exact Br|]. split.
  - apply (pad_bytes_written len t f _ l z); try assumption. rewrite Ft. apply Forall_app. now split.
  - intros tl T. rewrite C, (pad_again len t f _ l z) by assumption. rewrite Ft, <- app_assoc.
    assert (NE' : d = [] -> z = 0 -> tl <> []).
    { intros D Z0 X. apply (NE D Z0). now apply T. }
    rewrite U.
    + rewrite data_again; [reflexivity| | |exact NE']; unfold byte in *; lia.
    + intros X. apply app_eq_nil in X. destruct X as [D X]. apply app_eq_nil in X. destruct X as [R T'].
      apply NE'; [exact D| |exact T']. apply (f_equal (@List.length byte)) in R. rewrite zeros_length in R.
      cbn [List.length] in R. lia.
Qed.

(* Frames that consist of fixed fields. *)
Lemma again_fixed len t f c r : has_pad t f = false -> Forall inner c -> bytes r -> bytes (flat_map (text f) c) ->
  (forall tl, contents len t f (flat_map (text f) c ++ tl) = Whole c tl) -> again len t f c r.
Proof.
  intros P I B Bc C. unfold again, payload_written. rewrite P. cbv zeta. repeat split; auto.
Qed.

Lemma low31 v : v mod 2 ^ 31 < 2 ^ 31.
Proof. apply N.mod_lt. discriminate. Qed.

Definition ptext (x : bool) (s w : N) : list byte := be32 (bit31 x s) ++ [w].
Lemma ptext_bytes x s w : w < 256 -> bytes (ptext x s w).
Proof. intros W. apply Forall_app. split; [apply be32_bytes|now repeat constructor]. Qed.

Lemma field_prio x s w : s < 2 ^ 31 -> field (ptext x s w) 0 4 = bit31 x s /\ field (ptext x s w) 4 1 = w.
Proof. intros S. destruct (bit31_bounds x s S) as [V _]. split; [exact (num_be32 _ V)|reflexivity]. Qed.

Lemma prio_told x s w : s < 2 ^ 31 ->
  let y := ptext x s w in
  (2 ^ 31 <=? field y 0 4) = x /\ field y 0 4 mod 2 ^ 31 = s /\ field y 4 1 = w.
Proof.
  intros S y. subst y. destruct (field_prio x s w S) as [E1 E2]. rewrite E1, E2.
  destruct (bit31_bounds x s S) as (_ & V1 & V2). auto.
Qed.

Lemma bytes1 (b : byte) : b < 256 -> bytes [b].
Proof. now repeat constructor. Qed.
Lemma bytes_app a b : bytes a -> bytes b -> bytes (a ++ b).
Proof. intros A B. apply Forall_app. now split. Qed.

Lemma again_tail len t f l z k d r :
  (has_pad t f = true -> 1 <= len /\ l = len - 1) -> (has_pad t f = false -> l = len /\ z = 0) -> z < 256 ->
  z <= l -> N.of_nat (List.length d) = l - z -> bytes d -> bytes r -> (d = [] -> z = 0 -> r <> []) ->
  (forall s, contents len t f s = pad_length (has_pad t f) len s (data k)) ->
  again len t f (item k d) r.
Proof.
  intros P1 P2 Z L Ld Bd Br NE C. apply (again_data len t f l z [] k d r (data k)); try assumption.
  - cbn [flat_map List.length]. lia.
  - constructor.
  - constructor.
  - intros tl _. cbn [flat_map List.length app]. rewrite N.sub_0_r. now destruct (data k l z _).
Qed.

Ltac tail_data l z := apply again_tail with (l := l) (z := z); try assumption; intros; reflexivity.

Lemma field_app x y i n : (i + n <= List.length x)%nat -> field (x ++ y) i n = field x i n.
Proof.
  intros L. unfold field. rewrite skipn_app, firstn_app.
  replace (n - List.length (skipn i x))%nat with 0%nat by (rewrite skipn_length; lia).
  now rewrite firstn_O, app_nil_r.
Qed.

Lemma contents_priority len f s : contents len 2 f s = fixed 5 s (fun x s =>
  Whole [FEv (EPriority (2 ^ 31 <=? field x 0 4) (field x 0 4 mod 2 ^ 31) (field x 4 1))] s).
Proof. reflexivity. Qed.

Lemma contents_again lost len t f s c r : bytes s ->
  full_contents true lost len t f s = Http2Full.Frame c r -> again len t f c r.
Proof.
  intros B. unfold full_contents.
  destruct t as [|t]; [|destruct t as [[[[t|t|]|[t|t|]|]|[[t|t|]|[t|t|]|]|]|[[[t|t|]|[t|t|]|]|[[t|t|]|[t|t|]|]|]|]];
  try (intros E; apply pad_inv in E; [|exact B]; destruct E as (l & z & s' & B' & Z & E & P1 & P2);
       apply data_inv in E; [|exact B']; destruct E as (L & d & -> & Ld & Bd & Br & NE);
       tail_data l z);
  try (match goal with |- full_data _ _ _ _ _ _ = _ -> _ => idtac end;
       intros E; apply data_inv in E; [|exact B]; destruct E as (L & d & -> & Ld & Bd & Br & NE);
       apply again_tail with (l := len) (z := 0); try assumption;
       [intros Q; discriminate Q|now split|exact eq_refl|intros u; exact eq_refl]).
  - (* GOAWAY *)
    intros E. destruct lost.
    { apply fields_inv in E; [|exact B]. destruct E as (x & s' & _ & _ & _ & _ & E). discriminate E. }
    apply fields_inv in E; [|exact B]. destruct E as (x & s' & -> & Lx & Bx & Bs & E).
    apply less_inv in E. destruct E as [L E]. apply saying_inv in E. destruct E as (e1 & E & ->).
    pose proof (low31 (field x 0 4)) as V1. pose proof (field4 x 4 Bx) as V2.
    revert V1 V2. generalize (field x 0 4 mod 2 ^ 31) (field x 4 4). intros v c V1 V2.
    set (y := be32 v ++ be32 c).
    assert (Y : field y 0 4 mod 2 ^ 31 = v /\ field y 4 4 = c).
    { split.
      - change (field y 0 4) with (num (be32 v)). rewrite num_be32; [now apply N.mod_small|].
        eapply N.lt_trans; [exact V1|reflexivity].
      - exact (num_be32 _ V2). }
    destruct Y as [Y1 Y2].
    assert (By : bytes y) by (apply bytes_app; apply be32_bytes).
    destruct (N.eqb_spec (len - 8) 0) as [Q|Q].
    + injection E as <- <-. apply again_fixed; try reflexivity; try assumption.
      * now repeat constructor.
      * intros tl. change (flat_map (text f) ([FEv (EGoAway v c)] ++ [])) with y. unfold contents.
        rewrite fixed_take by reflexivity. rewrite Y1, Y2.
        destruct (N.ltb_spec len 8); [lia|]. destruct (N.eqb_spec len 8); [reflexivity|lia].
    + apply data_inv in E; [|exact Bs]. destruct E as (L' & d & -> & Ld & Bd & Br & NE).
      apply (again_data len 7 f len 0 [FEv (EGoAway v c)] KDebug d r (fun _ _ s => contents len 7 f s));
        try assumption; try reflexivity; try discriminate.
      * now split.
      * change (flat_map (text f) [FEv (EGoAway v c)]) with y. change (N.of_nat (List.length y)) with 8. lia.
      * now repeat constructor.
      * intros tl _. change (flat_map (text f) [FEv (EGoAway v c)]) with y. unfold contents.
        rewrite fixed_take by reflexivity. rewrite Y1, Y2. change (N.of_nat (List.length y)) with 8.
        destruct (N.ltb_spec len 8); [lia|]. destruct (N.eqb_spec len 8); [lia|reflexivity].
  - (* PUSH_PROMISE *)
    intros E. apply pad_inv in E; [|exact B]. destruct E as (l & z & s0 & B0 & Z & E & P1 & P2).
    apply fields_inv in E; [|exact B0]. destruct E as (x & s' & -> & Lx & Bx & Bs & E).
    destruct s' as [|b s']; [discriminate E|].
    apply less_inv in E. destruct E as [L E]. apply saying_inv in E. destruct E as (e1 & E & ->).
    assert (V : num x < 2 ^ 32).
    { pose proof (num_bound x Bx) as V. rewrite Lx in V. exact V. }
    apply data_inv in E; [|exact Bs]. destruct E as (L' & d & -> & Ld & Bd & Br & NE).
    revert V. generalize (num x). intros v V.
    eapply (again_data len 5 f l z [FEv (EPushPromise v)] KFragment d r); try eassumption.
    + change (N.of_nat (List.length (flat_map (text f) [FEv (EPushPromise v)]))) with 4. lia.
    + now repeat constructor.
    + change (flat_map (text f) [FEv (EPushPromise v)]) with (be32 v). apply be32_bytes.
    + intros u. reflexivity.
    + intros tl N0. cbv beta. change (flat_map (text f) [FEv (EPushPromise v)]) with (be32 v).
      change (N.of_nat (List.length (be32 v))) with 4. rewrite fixed_take by reflexivity.
      rewrite num_be32 by exact V. destruct (d ++ zeros z ++ tl) as [|b0 s0]; [congruence|].
      destruct (N.ltb_spec l 4); [lia|reflexivity].
  - (* RST_STREAM *)
    intros E. apply fields_inv in E; [|exact B]. destruct E as (x & s' & -> & Lx & Bx & Bs & E).
    injection E as <- <-.
    assert (V : num x < 2 ^ 32).
    { pose proof (num_bound x Bx) as V. rewrite Lx in V. exact V. }
    revert V. generalize (num x). intros v V. apply again_fixed; try reflexivity; try assumption.
    + now repeat constructor.
    + apply be32_bytes.
    + intros tl. change (flat_map (text f) [FEv (ERstStream v)]) with (be32 v). unfold contents.
      rewrite fixed_take by reflexivity. now rewrite num_be32.
  - (* WINDOW_UPDATE *)
    intros E. apply fields_inv in E; [|exact B]. destruct E as (x & s' & -> & Lx & Bx & Bs & E).
    injection E as <- <-.
    assert (V : num x < 2 ^ 32).
    { pose proof (num_bound x Bx) as V. rewrite Lx in V. exact V. }
    revert V. generalize (num x). intros v V. apply again_fixed; try reflexivity; try assumption.
    + now repeat constructor.
    + apply be32_bytes.
    + intros tl. change (flat_map (text f) [FEv (EWindowUpdate v)]) with (be32 v). unfold contents.
      rewrite fixed_take by reflexivity. now rewrite num_be32.
  - (* SETTINGS *)
    intros E. apply fields_inv in E; [|exact B]. destruct E as (x & s' & -> & Lx & Bx & Bs & E).
    destruct lost; [discriminate E|]. injection E as <- <-.
    pose proof (field2 x 0 Bx) as V1. pose proof (field4 x 2 Bx) as V2.
    revert V1 V2. generalize (field x 0 2) (field x 2 4). intros i v V1 V2.
    apply again_fixed; try reflexivity; try assumption.
    + now repeat constructor.
    + apply (bytes_app (be16 i)); [apply be16_bytes|apply be32_bytes].
    + intros tl. change (flat_map (text f) [FEv (ESettings i v)]) with (be16 i ++ be32 v). unfold contents.
      rewrite fixed_take by reflexivity.
      change (field (be16 i ++ be32 v) 0 2) with (num (be16 i)).
      change (field (be16 i ++ be32 v) 2 4) with (num (be32 v)).
      now rewrite num_be32, num_be16.
  - (* PRIORITY *)
    intros E. apply fields_inv in E; [|exact B]. destruct E as (x & s' & -> & Lx & Bx & Bs & E).
    apply frame_eq in E. destruct E as [<- <-].
    pose proof (low31 (field x 0 4)) as V1. pose proof (field1 x 4 Bx) as V2.
    revert V1 V2. generalize (2 ^ 31 <=? field x 0 4) (field x 0 4 mod 2 ^ 31) (field x 4 1). intros e i w V1 V2.
    apply again_fixed; try reflexivity; try assumption.
    + now repeat constructor.
    + now apply (ptext_bytes e i w).
    + intros tl. change (flat_map (text f) [FEv (EPriority e i w)]) with (ptext e i w). rewrite contents_priority.
      rewrite fixed_take by reflexivity. destruct (prio_told e i w V1) as (Q1 & Q2 & Q3). now rewrite Q1, Q2, Q3.
  - (* HEADERS *)
    intros E. apply pad_inv in E; [|exact B]. destruct E as (l & z & s0 & B0 & Z & E & P1 & P2).
    destruct (flag_priority f) eqn:Pf.
    + apply fields_inv in E; [|exact B0]. destruct E as (x & s' & -> & Lx & Bx & Bs & E).
      apply less_inv in E. destruct E as [L E]. apply saying_inv in E. destruct E as (e1 & E & ->).
      apply data_inv in E; [|exact Bs]. destruct E as (L' & d & -> & Ld & Bd & Br & NE).
      pose proof (low31 (field x 0 4)) as V1. pose proof (field1 x 4 Bx) as V2.
      revert V1 V2. generalize (2 ^ 31 <=? field x 0 4) (field x 0 4 mod 2 ^ 31) (field x 4 1). intros e i w V1 V2.
      assert (Ft : flat_map (text f) [FEv (EHeaders e i w)] = ptext e i w).
      { cbn [flat_map text]. now rewrite Pf. }
      eapply (again_data len 1 f l z [FEv (EHeaders e i w)] KFragment d r); try eassumption.
      * rewrite Ft. change (N.of_nat (List.length (ptext e i w))) with 5. lia.
      * now repeat constructor.
      * rewrite Ft. now apply ptext_bytes.
      * intros u. reflexivity.
      * intros tl N0. rewrite Ft. cbv beta. rewrite Pf.
        change (N.of_nat (List.length (ptext e i w))) with 5. rewrite fixed_take by reflexivity.
        destruct (prio_told e i w V1) as (Q1 & Q2 & Q3). rewrite Q1, Q2, Q3.
        destruct (N.ltb_spec l 5); [lia|reflexivity].
    + destruct (flag_padded f) eqn:Pd.
      * apply saying_inv in E. destruct E as (e1 & E & ->).
        apply data_inv in E; [|exact B0]. destruct E as (L' & d & -> & Ld & Bd & Br & NE).
        assert (Ft : flat_map (text f) [FEv (EHeaders false 0 0)] = []).
        { cbn [flat_map text]. now rewrite Pf. }
        eapply (again_data len 1 f l z [FEv (EHeaders false 0 0)] KFragment d r); try eassumption.
        -- intros Q. apply P1. exact eq_refl.
        -- cbn [has_pad]. rewrite Pd. discriminate.
        -- rewrite Ft. cbn [List.length]. lia.
        -- now repeat constructor.
        -- rewrite Ft. constructor.
        -- intros u. reflexivity.
        -- intros tl N0. rewrite Ft. cbv beta. rewrite Pf, Pd. cbn [List.length app]. now rewrite N.sub_0_r.
      * apply data_inv in E; [|exact B0]. destruct E as (L' & d & -> & Ld & Bd & Br & NE).
        apply again_tail with (l := l) (z := z); try assumption.
        -- cbn [has_pad]. rewrite Pd. discriminate.
        -- intros Q. apply P2. exact eq_refl.
        -- intros u. cbn [contents has_pad]. rewrite Pf, Pd. reflexivity.
Qed.

(* ------------------------------------------------------------------ *)
(* Frames                                                               *)
(* ------------------------------------------------------------------ *)

Definition frame_text (len t f id : N) (c : list fevent) : list byte :=
  be24 len ++ [t; f] ++ be32 id ++ payload_written len t f c.

Lemma frame_again cut s e r : bytes s -> full_frame true cut s = Http2Full.Frame e r ->
  exists len t f id c, e = FEv (EFrameFormat len t f id) :: c /\ Forall inner c /\ bytes r /\
    bytes (frame_text len t f id c) /\
    forall tl, (tl = [] -> r = []) -> one_frame (frame_text len t f id c ++ tl) = Whole e tl.
Proof.
  intros B E. unfold full_frame in E. apply fields_inv in E; [|exact B].
  destruct E as (x & s' & Es & Lx & Bx & Bs & E). cbv zeta in E.
  set (id := if split cut s 5 9 then field x 7 2 else field x 5 4 mod 2 ^ 31) in E.
  set (lost := if field x 3 1 =? 7 then split cut s 9 13 else split cut s 11 15) in E.
  assert (Vi : id < 2 ^ 31).
  { subst id. destruct (split cut s 5 9); [|apply low31].
    eapply N.lt_trans; [apply (field2 x 7 Bx)|reflexivity]. }
  pose proof (field3 x 0 Bx) as Vl. pose proof (field1 x 3 Bx) as Vt. pose proof (field1 x 4 Bx) as Vf.
  apply saying_inv in E. destruct E as (c & E & ->).
  apply contents_again in E; [|exact Bs]. clearbody id lost. clear Es.
  revert Vl Vt Vf E. generalize (field x 0 3) (field x 3 1) (field x 4 1). intros len t f Vl Vt Vf E.
  exists len, t, f, id, c. split; [reflexivity|]. destruct E as (I & Br & Bp & A).
  split; [exact I|]. split; [exact Br|]. unfold frame_text. split.
  - apply bytes_app; [apply be24_bytes|]. apply bytes_app; [now repeat constructor|].
    apply bytes_app; [apply be32_bytes|exact Bp].
  - intros tl T. specialize (A tl T).
    set (y := be24 len ++ [t; f] ++ be32 id).
    replace ((be24 len ++ [t; f] ++ be32 id ++ payload_written len t f c) ++ tl)
      with (y ++ payload_written len t f c ++ tl) by reflexivity.
    unfold one_frame. rewrite fixed_take by reflexivity.
    change (field y 0 3) with (num (be24 len)). change (field y 3 1) with t. change (field y 4 1) with f.
    change (field y 5 4) with (num (be32 id)).
    rewrite num_be24 by exact Vl. rewrite num_be32 by (eapply N.lt_trans; [exact Vi|reflexivity]).
    rewrite (N.mod_small id) by exact Vi. rewrite A. reflexivity.
Qed.

(* ------------------------------------------------------------------ *)
(* Streams                                                              *)
(* ------------------------------------------------------------------ *)

(* Observations that begin with a frame header, if there are any. *)
Definition starts (l : list fevent) : Prop :=
  match l with [] => True | ev :: _ => ~ inner ev end.

Lemma this_frame_app c l : Forall inner c -> starts l -> this_frame (c ++ l) = c.
Proof.
  intros I S. induction c as [|ev c IH].
  - destruct l as [|ev l]; [reflexivity|]. cbn in S. cbn [app this_frame].
    destruct ev as [k b|k|e]; try (exfalso; now apply S). destruct e; try (exfalso; now apply S). reflexivity.
  - inversion I as [|? ? I1 I2]; subst. cbn [app this_frame]. specialize (IH I2).
    destruct ev as [k b|k|e]; try now rewrite IH. destruct e; try now rewrite IH. contradiction.
Qed.

Lemma written_app c l : Forall inner c -> frames_written (c ++ l) = frames_written l.
Proof.
  intros I. induction I as [|ev c I1 I2 IH]; [reflexivity|]. cbn [app frames_written].
  destruct ev as [k b|k|e]; try exact IH. destruct e; try exact IH. contradiction.
Qed.

Lemma written_frame len t f id c l : Forall inner c -> starts l ->
  frames_written (FEv (EFrameFormat len t f id) :: c ++ l) = frame_text len t f id c ++ frames_written l.
Proof.
  intros I S. unfold frame_text. cbn [frames_written]. rewrite this_frame_app, written_app by assumption.
  now rewrite <- !app_assoc.
Qed.

Lemma frames_again cut n : forall s a, bytes s -> snd (full_frames true cut n s) = Some (a, []) ->
  let l := fst (full_frames true cut n s) in
  starts l /\ bytes (frames_written l) /\ (s = [] -> l = []) /\ (frames_written l = [] -> s = []) /\
  forall m, (List.length (frames_written l) < m)%nat -> frames m (frames_written l) = (l, Some []).
Proof.
  induction n as [|n IH]; intros s a B E; cbn [full_frames] in E |- *.
  { cbn [fst snd] in E |- *. injection E as _ ->. repeat split; try (now constructor).
    intros m M. destruct m; [reflexivity|]. reflexivity. }
  destruct (full_frame true cut s) as [e r|a' e|e] eqn:F.
  - cbn [fst snd] in E |- *. destruct (frame_again _ _ _ _ B F) as (len & t & f & id & c & -> & I & Br & Bw & A).
    destruct (IH r a Br E) as (S1 & S2 & S3 & S4 & S5). clear IH E.
    set (l := fst (full_frames true cut n r)) in *. rewrite <- app_comm_cons, written_frame by assumption.
    specialize (A (frames_written l) S4).
    pose proof (one_frame_shrinks _ _ _ A) as Sh.
    split; [cbn; auto|]. split; [now apply bytes_app|].
    split; [intros ->; discriminate F|].
    split.
    { intros X. rewrite X in Sh. cbn [List.length] in Sh. lia. }
    intros m M. destruct m as [|m]; [lia|]. cbn [frames]. rewrite A.
    rewrite S5 by lia. reflexivity.
  - cbn [fst snd] in E |- *. injection E as -> ->. injection F as _ <-.
    repeat split; try (now constructor). intros m M. destruct m; reflexivity.
  - discriminate E.
Qed.

Lemma again_decoded segs a : bytes (List.concat segs) -> snd (full true segs) = Some (a, []) ->
  bytes (frames_written (fst (full true segs))) /\
  decoded (frames_written (fst (full true segs))) = (fst (full true segs), Some []).
Proof.
  intros B E. unfold full in *. destruct (frames_again _ _ _ _ B E) as (_ & H1 & _ & _ & H2).
  split; [exact H1|]. apply H2. lia.
Qed.

(* ------------------------------------------------------------------ *)
(* Clients                                                              *)
(* ------------------------------------------------------------------ *)

Lemma frames_passed_on h segs p log chk2 h2 segs2 :
  bytes (List.concat segs) -> feed true h new segs = (p, log, OEos) -> state p = StFrameLength1 ->
  List.concat segs2 = frames_written (flat log) -> whole_fields segs2 ->
  exists p2 log2, feed chk2 h2 new segs2 = (p2, log2, OEos) /\ state p2 = StFrameLength1 /\ flat log2 = flat log.
Proof.
  intros B F S C W. destruct (h2_full true h segs B ltac:(discriminate)) as (p' & log' & F' & L & X).
  rewrite F in F'. injection F' as <- <- O.
  destruct (snd (full true segs)) as [[a r]|] eqn:E; [|discriminate O].
  destruct (X a r eq_refl) as (X1 & X2 & _). rewrite S in X1. subst a. destruct X2 as [X2 _].
  rewrite (X2 eq_refl) in E. destruct (again_decoded segs _ B E) as [Bw D]. rewrite <- L in Bw, D. rewrite <- C in Bw, D.
  destruct (h2_any chk2 h2 segs2 Bw W) as (p2 & log2 & F2 & L2 & X3).
  { rewrite D. discriminate. }
  rewrite D in F2, L2, X3. exists p2, log2. split; [exact F2|]. split; [|exact L2].
  destruct (X3 [] eq_refl) as [[_ Q] _]. now apply Q.
Qed.

Lemma whole_one h segs p log :
  bytes (List.concat segs) -> feed true h new segs = (p, log, OEos) -> state p = StFrameLength1 ->
  whole_fields [frames_written (flat log)].
Proof.
  intros B F S. destruct (h2_full true h segs B ltac:(discriminate)) as (p' & log' & F' & L & X).
  rewrite F in F'. injection F' as <- <- O.
  destruct (snd (full true segs)) as [[a r]|] eqn:E; [|discriminate O].
  destruct (X a r eq_refl) as (X1 & X2 & _). rewrite S in X1. subst a. destruct X2 as [X2 _].
  rewrite (X2 eq_refl) in E. destruct (again_decoded segs _ B E) as [Bw D]. rewrite <- L in Bw, D.
  intros before after r' Es. destruct before as [|x before].
  - intros [= <-]. reflexivity.
  - cbn [app] in Es. injection Es as <- Es. symmetry in Es. apply app_eq_nil in Es. destruct Es as [-> _].
    cbn [List.concat]. rewrite app_nil_r, D. intros [= <-]. reflexivity.
Qed.

(* ------------------------------------------------------------------ *)
(* Well-formed frames                                                   *)
(* ------------------------------------------------------------------ *)

Lemma zeros_map (z : list byte) : map (fun _ => 0) z = zeros (N.of_nat (List.length z)).
Proof.
  unfold zeros. rewrite Nnat.Nat2N.id. induction z as [|b z IH]; [reflexivity|]. cbn [map List.length repeat]. now rewrite IH.
Qed.

Lemma padded_length pad d :
  List.length (padded pad d) = (match pad with Some z => 1 + List.length d + List.length z | None => List.length d end)%nat.
Proof. destruct pad; cbn [padded]; [|reflexivity]. rewrite !app_length. cbn [List.length]. lia. Qed.

Lemma zero_pad_length pad d : List.length (padded (zero_pad pad) d) = List.length (padded pad d).
Proof. rewrite !padded_length. destruct pad as [z|]; cbn [zero_pad]; [now rewrite map_length|reflexivity]. Qed.

Lemma zeroed_length b : List.length (payload (zero_body b)) = List.length (payload b).
Proof.
  destruct b as [pad d|pad prio d|q|q|i v|pad q i d|d|q i v d|q n|d|t pad d]; cbn [zero_body payload];
    try reflexivity; apply zero_pad_length.
Qed.

Lemma zeroed_type b : type_of (zero_body b) = type_of b.
Proof. now destruct b. Qed.

Lemma seen_zeroed f : seen (zeroed f) = seen f.
Proof.
  destruct f as [fl rs st b]. unfold seen, zeroed. cbn [f_flags f_rsv f_stream f_body].
  rewrite zeroed_length, zeroed_type. f_equal.
  destruct b as [pad d|pad prio d|q|q|i v|pad q i d|d|q i v d|q n|d|t pad d]; try reflexivity.
  now destruct pad.
Qed.

Lemma wf_zero_pad fl pad : wf_pad fl pad -> wf_pad fl (zero_pad pad).
Proof. intros [P Q]. destruct pad as [z|]; split; try assumption. cbn [zero_pad]. now rewrite map_length. Qed.

Lemma bytes_zero_pad pad d : bytes (padded pad d) -> bytes (padded (zero_pad pad) d).
Proof.
  destruct pad as [z|]; [|auto]. cbn [padded zero_pad]. intros B. rewrite map_length.
  apply Forall_app in B. destruct B as [B1 B2]. apply Forall_app in B2. destruct B2 as [B2 B3].
  apply bytes_app; [exact B1|]. apply bytes_app; [exact B2|].
  clear. induction z; [constructor|]. cbn [map]. constructor; [reflexivity|assumption].
Qed.

Lemma wf_zeroed f : wf_frame f -> wf_frame (zeroed f).
Proof.
  destruct f as [fl rs st b]. intros (W1 & W2 & W3 & W4 & W5). unfold zeroed, wf_frame.
  cbn [f_flags f_rsv f_stream f_body] in *. rewrite zeroed_length.
  split; [exact W1|]. split; [exact W2|]. split; [|split; [|exact W5]].
  - destruct b as [pad d|pad prio d|q|q|i v|pad q i d|d|q i v d|q n|d|t pad d];
      cbn [zero_body wf_body] in *; try exact W3.
    + now apply wf_zero_pad.
    + destruct W3 as (A & X). split; [now apply wf_zero_pad|exact X].
    + destruct W3 as (A & X). split; [now apply wf_zero_pad|exact X].
    + destruct W3 as (A & X). split; [exact A|now apply wf_zero_pad].
  - destruct b as [pad d|pad prio d|q|q|i v|pad q i d|d|q i v d|q n|d|t pad d];
      cbn [zero_body payload] in *; try exact W4; try (now apply bytes_zero_pad).
    apply Forall_app in W4. destruct W4 as [_ W4]. apply bytes_app; [apply be32_bytes|exact W4].
Qed.

Lemma text_fixed f e : flat_map (text f) [FEv e] = text f (FEv e).
Proof. cbn [flat_map]. apply app_nil_r. Qed.

(* The payload, once what is told of it is known. *)
Lemma payload_again t f pad d c : wf_pad f pad -> has_pad t f = flag_padded f -> flat_map (text f) c = d ->
  payload_written (N.of_nat (List.length (padded pad d))) t f c = padded (zero_pad pad) d.
Proof.
  intros [P _] H Ft. unfold payload_written. rewrite Ft, H, P, padded_length. destruct pad as [z|]; cbn [is_some zero_pad padded].
  - cbv zeta. rewrite map_length, zeros_map.
    replace (N.of_nat (1 + List.length d + List.length z) - 1 - N.of_nat (List.length d))
      with (N.of_nat (List.length z)) by (unfold byte in *; lia).
    reflexivity.
  - reflexivity.
Qed.

Lemma has_pad_unknown t f : 10 <= t -> has_pad t f = flag_padded f.
Proof.
  intros T. unfold has_pad.
  destruct t as [|t]; [reflexivity|destruct t as [[[[t|t|]|[t|t|]|]|[[t|t|]|[t|t|]|]|]|[[[t|t|]|[t|t|]|]|[[t|t|]|[t|t|]|]|]|]];
    try reflexivity; exfalso; revert T; now apply N.lt_nge.
Qed.

Lemma body_again fl b : wf_body fl b ->
  payload_written (N.of_nat (List.length (payload b))) (type_of b) fl (seen_body b) = payload (zero_body b) /\
  Forall inner (seen_body b).
Proof.
  intros W. destruct b as [pad d|pad prio d|q|q|i v|pad q i d|d|q i v d|q n|d|t pad d];
    cbn [wf_body seen_body payload type_of zero_body] in *.
  - split; [|apply inner_item]. apply payload_again; [exact W|reflexivity|apply text_item].
  - destruct W as (W1 & W2 & _). split.
    + apply payload_again; [exact W1|reflexivity|]. rewrite flat_map_app, text_item. f_equal.
      destruct prio as [p|].
      * rewrite text_fixed. cbn [text]. now rewrite W2.
      * destruct pad; [|reflexivity]. rewrite text_fixed. cbn [text]. now rewrite W2.
    + apply Forall_app. split; [|apply inner_item]. destruct prio; [now repeat constructor|].
      destruct pad; now repeat constructor.
  - split; [reflexivity|now repeat constructor].
  - split; [reflexivity|now repeat constructor].
  - split; [reflexivity|now repeat constructor].
  - destruct W as (W1 & _). split.
    + apply payload_again; [exact W1|reflexivity|]. cbn [flat_map]. now rewrite text_item.
    + constructor; [exact I|apply inner_item].
  - split; [|apply inner_item]. unfold payload_written. cbn [has_pad]. apply text_item.
  - split.
    + unfold payload_written. cbn [has_pad flat_map text]. rewrite <- app_assoc. f_equal. f_equal.
      destruct d as [|b d]; [reflexivity|apply text_item].
    + constructor; [exact I|]. destruct d; [constructor|apply inner_item].
  - split; [reflexivity|now repeat constructor].
  - split; [|apply inner_item]. unfold payload_written. cbn [has_pad]. apply text_item.
  - destruct W as [[W1 _] W2]. split; [|apply inner_item].
    apply payload_again; [exact W2|now apply has_pad_unknown|apply text_item].
Qed.

Lemma written_seen fs : Forall wf_frame fs -> frames_written (seen_all fs) = render_all (map zeroed fs).
Proof.
  induction 1 as [|f fs W _ IH]; [reflexivity|]. unfold seen_all, render_all in *. cbn [map List.concat].
  destruct f as [fl rs st b]. destruct W as (W1 & W2 & W3 & W4 & W5). cbn [f_flags f_rsv f_stream f_body] in *.
  destruct (body_again fl b W3) as [P I]. unfold seen at 1. cbn [f_flags f_rsv f_stream f_body].
  rewrite <- app_comm_cons, written_frame; [|exact I|destruct fs; cbn; auto].
  rewrite IH. f_equal. unfold frame_text. rewrite P. unfold render, render_header, zeroed, bit31.
  cbn [f_flags f_rsv f_stream f_body]. rewrite zeroed_length, zeroed_type, N.add_0_l.
  now rewrite <- !app_assoc.
Qed.

Lemma plain_frames fs : Forall wf_frame fs ->
  frames_written (seen_all fs) = render_all (map zeroed fs) /\
  Forall wf_frame (map zeroed fs) /\ seen_all (map zeroed fs) = seen_all fs.
Proof.
  intros W. split; [now apply written_seen|]. split.
  - induction W; [constructor|]. cbn [map]. constructor; [now apply wf_zeroed|assumption].
  - unfold seen_all. f_equal. rewrite map_map. apply map_ext. apply seen_zeroed.
Qed.

Lemma frames_written_plain fs (v : byte) segs chk h :
  Forall wf_frame fs -> v < 256 -> List.concat segs = render_all fs ++ [v] -> safe_cuts fs segs ->
  exists p log, feed chk h new segs = (p, log, OEos) /\
    frames_written (flat log) = render_all (map zeroed fs) /\
    Forall wf_frame (map zeroed fs) /\ seen_all (map zeroed fs) = flat log.
Proof.
  intros W V C S. destruct (h2_frames fs v segs chk h W V C S) as (p & log & _ & _ & F & L & _).
  exists p, log. rewrite L. split; [exact F|]. now apply plain_frames.
Qed.
