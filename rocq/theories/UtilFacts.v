(* The reference functions of UtilRef.v meet the specification of UtilSpec.v. *)

From Coq Require Import NArith List Bool Arith Lia String.
From Verif Require Import Bytes ByteStream UtilModel UtilSpec UtilRef.
Import ListNotations.
Local Open Scope N_scope.
Local Open Scope list_scope.

(* --------------------------------------------------------------- bytes *)

Lemma below n (P : N -> bool) :
  forallb P (map N.of_nat (seq 0 n)) = true -> forall b, b < N.of_nat n -> P b = true.
Proof.
  intros H b L. rewrite forallb_forall in H. apply H.
  apply in_map_iff. exists (N.to_nat b). split; [apply N2Nat.id|].
  apply in_seq. lia.
Qed.

Ltac nbool := repeat match goal with
  | H : (_ && _) = true |- _ => apply andb_true_iff in H; destruct H
  | H : (_ || _) = true |- _ => apply orb_true_iff in H; destruct H
  | H : (_ && _) = false |- _ => apply andb_false_iff in H; destruct H
  | H : (_ || _) = false |- _ => apply orb_false_iff in H; destruct H
  | H : negb _ = true |- _ => apply negb_true_iff in H
  | H : negb _ = false |- _ => apply negb_false_iff in H
  | H : (_ =? _) = true |- _ => apply N.eqb_eq in H
  | H : (_ =? _) = false |- _ => apply N.eqb_neq in H
  | H : (_ <=? _) = true |- _ => apply N.leb_le in H
  | H : (_ <=? _) = false |- _ => apply N.leb_gt in H
  | H : (_ <? _) = true |- _ => apply N.ltb_lt in H
  | H : (_ <? _) = false |- _ => apply N.ltb_ge in H
  end.

Lemma visible_true b : is_visible_7bit b = true <-> visible b.
Proof.
  unfold is_visible_7bit, visible. rewrite andb_true_iff, !N.leb_le. lia.
Qed.

Lemma visible_false b : is_visible_7bit b = false <-> ~ visible b.
Proof.
  rewrite <- visible_true. destruct (is_visible_7bit b); split; congruence.
Qed.

Lemma isws_true b : isws b = true <-> ws b.
Proof. unfold isws, ws. rewrite orb_true_iff, !N.eqb_eq. tauto. Qed.

Lemma isws_false b : isws b = false <-> ~ ws b.
Proof. rewrite <- isws_true. destruct (isws b); split; congruence. Qed.

Lemma upper_true b : is_upper b = true <-> upper b.
Proof. unfold is_upper, upper. rewrite andb_true_iff, !N.ltb_lt. lia. Qed.

Lemma upper_false b : is_upper b = false <-> ~ upper b.
Proof. rewrite <- upper_true. destruct (is_upper b); split; congruence. Qed.

(* hexadecimal digits *)
Definition hexb (b v : N) : bool :=
  let h o := match o with Some x => x =? b | None => false end in
  h (nth_error (bs "0123456789abcdef") (N.to_nat v)) ||
  h (nth_error (bs "0123456789ABCDEF") (N.to_nat v)).

Lemma hexb_true b v : hexb b v = true <-> HexDigit b v.
Proof.
  unfold hexb, HexDigit. rewrite orb_true_iff.
  destruct (nth_error (bs "0123456789abcdef") (N.to_nat v)) as [x|],
           (nth_error (bs "0123456789ABCDEF") (N.to_nat v)) as [y|]; rewrite ?N.eqb_eq;
  intuition (try congruence).
Qed.

Lemma hex_small b v : HexDigit b v -> b < 128 /\ v < 16.
Proof.
  intros [H|H].
  - assert (N.to_nat v < 16)%nat.
    { change 16%nat with (List.length (bs "0123456789abcdef")). apply nth_error_Some. congruence. }
    split; [|lia]. apply nth_error_In in H. cbn in H.
    repeat (destruct H as [<-|H]; [lia|]). destruct H.
  - assert (N.to_nat v < 16)%nat.
    { change 16%nat with (List.length (bs "0123456789ABCDEF")). apply nth_error_Some. congruence. }
    split; [|lia]. apply nth_error_In in H. cbn in H.
    repeat (destruct H as [<-|H]; [lia|]). destruct H.
Qed.

Lemma hex_table : forall b, b < 128 -> forall v, v < 16 ->
  hexb b v = match hex_digit b with Some w => w =? v | None => false end.
Proof.
  intros b Hb v Hv.
  assert (H := below 128 (fun b => forallb (fun v =>
    Bool.eqb (hexb b v) (match hex_digit b with Some w => w =? v | None => false end))
    (map N.of_nat (seq 0 16))) eq_refl b Hb).
  cbv beta in H. pose proof (below 16 _ H v Hv) as H'. cbv beta in H'. now apply eqb_prop in H'.
Qed.

Lemma hex_digit_bound b v : hex_digit b = Some v -> b < 128 /\ v < 16.
Proof.
  unfold hex_digit, is_digit. intros H.
  destruct ((48 <=? b) && (b <=? 57)) eqn:E1; [injection H as <-; nbool; lia|].
  destruct ((64 <? b) && (b <? 71)) eqn:E2; [injection H as <-; nbool; lia|].
  destruct ((96 <? b) && (b <? 103)) eqn:E3; [injection H as <-; nbool; lia|discriminate].
Qed.

Lemma hex_digit_some b v : hex_digit b = Some v <-> HexDigit b v.
Proof.
  rewrite <- hexb_true. split; intros H.
  - destruct (hex_digit_bound _ _ H) as [A B]. rewrite hex_table, H by auto. apply N.eqb_refl.
  - destruct (hex_small b v) as [A B]; [now apply hexb_true|].
    rewrite hex_table in H by auto. destruct (hex_digit b); [|discriminate].
    apply N.eqb_eq in H. now subst.
Qed.

Lemma hex_digit_none b : hex_digit b = None <-> not_hex b.
Proof.
  unfold not_hex. split.
  - intros H v Hv. apply hex_digit_some in Hv. congruence.
  - intros H. destruct (hex_digit b) as [v|] eqn:E; [|reflexivity].
    apply hex_digit_some in E. now apply H in E.
Qed.

Lemma hex_sum hi lo : N.shiftl hi 4 + lo = 16 * hi + lo.
Proof. rewrite N.shiftl_mul_pow2. change (2 ^ 4) with 16. lia. Qed.

(* tables *)
Definition tokenb (b : N) : bool :=
  ((65 <=? b) && (b <=? 90)) || ((97 <=? b) && (b <=? 122)) || ((48 <=? b) && (b <=? 57)) ||
  existsb (N.eqb b) (bs "!#$%&'*+-.^_`|~").

Lemma tokenb_true b : tokenb b = true <-> token b.
Proof.
  unfold tokenb, token. rewrite !orb_true_iff, !andb_true_iff, !N.leb_le, existsb_exists.
  split.
  - intros [[[H|H]|H]|(x & I & E)]; auto. apply N.eqb_eq in E. subst x. auto.
  - intros [H|[H|[H|H]]]; auto. right. exists b. split; auto. apply N.eqb_refl.
Qed.

Lemma lookup_255 t b : List.length t = 255%nat -> 255 <= b -> lookup t b = None.
Proof. intros L H. unfold lookup. apply nth_error_None. rewrite L. lia. Qed.

Definition opt_eqb (o : option bool) (x : bool) : bool :=
  match o with Some y => Bool.eqb x y | None => false end.

Lemma opt_eqb_true o x : opt_eqb o x = true -> o = Some x.
Proof. destruct o; simpl; [|discriminate]. intros H. apply eqb_prop in H. now subst. Qed.

Lemma token_table b : b < 255 -> is_token b = Some (tokenb b).
Proof.
  intros H. apply opt_eqb_true.
  exact (below 255 (fun b => opt_eqb (is_token b) (tokenb b)) eq_refl b H).
Qed.

Definition valueb (b : N) : bool :=
  (b =? 9) || ((32 <=? b) && (b <=? 126) && negb (b =? 34)) || ((128 <=? b) && (b <=? 254)).

Lemma valueb_true b : valueb b = true <-> value_byte b.
Proof.
  unfold valueb, value_byte.
  rewrite !orb_true_iff, !andb_true_iff, !N.leb_le, negb_true_iff, N.eqb_eq, N.eqb_neq. lia.
Qed.

Lemma field_table b : b < 255 -> is_header_field b = Some (valueb b).
Proof.
  intros H. apply opt_eqb_true.
  exact (below 255 (fun b => opt_eqb (is_header_field b) (valueb b)) eq_refl b H).
Qed.

Lemma quoted_table b : b < 255 -> is_quoted_header_field b = Some (valueb b && negb (b =? 92)).
Proof.
  intros H. apply opt_eqb_true.
  exact (below 255 (fun b => opt_eqb (is_quoted_header_field b) (valueb b && negb (b =? 92))) eq_refl b H).
Qed.

Lemma token_bound b : token b -> b < 255.
Proof.
  unfold token. cbn. intros H. repeat destruct H as [H|H]; try subst b; lia.
Qed.

Lemma value_bound b : value_byte b -> b < 255.
Proof. unfold value_byte. lia. Qed.

Lemma is_token_true b : token b -> is_token b = Some true.
Proof. intros H. rewrite token_table by now apply token_bound. f_equal. now apply tokenb_true. Qed.
Lemma is_token_false b : b < 255 -> ~ token b -> is_token b = Some false.
Proof.
  intros L H. rewrite token_table by auto. f_equal. rewrite <- tokenb_true in H.
  now destruct (tokenb b).
Qed.
Lemma is_token_none b : 255 <= b -> is_token b = None.
Proof. now apply lookup_255. Qed.

Lemma is_field_true b : value_byte b -> is_header_field b = Some true.
Proof. intros H. rewrite field_table by now apply value_bound. f_equal. now apply valueb_true. Qed.
Lemma is_field_false b : b < 255 -> ~ value_byte b -> is_header_field b = Some false.
Proof.
  intros L H. rewrite field_table by auto. f_equal. rewrite <- valueb_true in H. now destruct (valueb b).
Qed.
Lemma is_field_none b : 255 <= b -> is_header_field b = None.
Proof. now apply lookup_255. Qed.

Lemma is_quoted_true b : value_byte b -> b <> 92 -> is_quoted_header_field b = Some true.
Proof.
  intros H N. rewrite quoted_table by now apply value_bound. f_equal.
  apply valueb_true in H. apply N.eqb_neq in N. now rewrite H, N.
Qed.
Lemma is_quoted_false b : b < 255 -> ~ value_byte b \/ b = 92 -> is_quoted_header_field b = Some false.
Proof.
  intros L H. rewrite quoted_table by auto. f_equal. rewrite <- valueb_true in H.
  destruct H as [H| ->]; [now destruct (valueb b)|]. now rewrite andb_false_r.
Qed.
Lemma is_quoted_none b : 255 <= b -> is_quoted_header_field b = None.
Proof. now apply lookup_255. Qed.

Lemma token_dec b : {token b} + {~ token b}.
Proof. destruct (tokenb b) eqn:E; [left|right]; rewrite <- tokenb_true; congruence. Qed.
Lemma value_dec b : {value_byte b} + {~ value_byte b}.
Proof. destruct (valueb b) eqn:E; [left|right]; rewrite <- valueb_true; congruence. Qed.
Lemma ws_dec b : {ws b} + {~ ws b}.
Proof. destruct (isws b) eqn:E; [left|right]; rewrite <- isws_true; congruence. Qed.
Lemma upper_dec b : {upper b} + {~ upper b}.
Proof. destruct (is_upper b) eqn:E; [left|right]; rewrite <- upper_true; congruence. Qed.
Lemma visible_dec b : {visible b} + {~ visible b}.
Proof. destruct (is_visible_7bit b) eqn:E; [left|right]; rewrite <- visible_true; congruence. Qed.
Lemma hex_dec b : {v | HexDigit b v} + {not_hex b}.
Proof.
  destruct (hex_digit b) as [v|] eqn:E; [left; exists v|right].
  now apply hex_digit_some. now apply hex_digit_none.
Qed.

(* -------------------------------------------------------------- decode *)

Lemma dref_encodes t d : Encodes t d -> dref t = DOk d.
Proof.
  induction 1 as [|b t d V N1 N2 E IH|t d E IH|h l vh vl t d Hh Hl E IH]; cbn [dref].
  - reflexivity.
  - apply N.eqb_neq in N1, N2. apply visible_true in V. now rewrite N1, N2, V, IH.
  - change (43 =? 43) with true. cbn iota. now rewrite IH.
  - change (37 =? 43) with false. change (37 =? 37) with true. cbn iota.
    apply hex_digit_some in Hh, Hl. rewrite Hh, Hl, IH, hex_sum. reflexivity.
Qed.

(* every text is an encoding or has a first problem *)
Lemma decode_total t : forall n, (List.length t < n)%nat ->
  (exists d, Encodes t d) \/
  (exists p d r e, t = p ++ r /\ Encodes p d /\ DecodeProblem r e).
Proof.
  intros n. revert t. induction n as [|n IH]; intros t L; [lia|].
  destruct t as [|b t]; [left; exists []; constructor|].
  cbn [List.length] in L.
  destruct (visible_dec b) as [V|V].
  2:{ right. exists [], [], (b :: t), (DByte b). repeat split; constructor; auto. }
  destruct (N.eq_dec b 43) as [->|N1].
  { destruct (IH t ltac:(lia)) as [(d & E)|(p & d & r & e & -> & E & P)].
    - left. exists (32 :: d). now constructor.
    - right. exists (43 :: p), (32 :: d), r, e. repeat split; auto. now constructor. }
  destruct (N.eq_dec b 37) as [->|N2].
  2:{ destruct (IH t ltac:(lia)) as [(d & E)|(p & d & r & e & -> & E & P)].
    - left. exists (b :: d). now constructor.
    - right. exists (b :: p), (b :: d), r, e. repeat split; auto. now constructor. }
  destruct t as [|x [|y t]].
  - right. exists [], [], [37], (DHexSequence 37). repeat split; econstructor; constructor.
  - right. exists [], [], [37; x], (DHexSequence x). repeat split; econstructor; constructor.
  - destruct (hex_dec x) as [[vx Hx]|Nx].
    2:{ right. exists [], [], (37 :: x :: y :: t), (DHexSequence x).
        repeat split; econstructor; now constructor. }
    destruct (hex_dec y) as [[vy Hy]|Ny].
    2:{ right. exists [], [], (37 :: x :: y :: t), (DHexSequence y).
        repeat split; econstructor. now apply ep_lo with vx. }
    cbn [List.length] in L.
    destruct (IH t ltac:(lia)) as [(d & E)|(p & d & r & e & -> & E & P)].
    + left. eexists. econstructor; eassumption.
    + right. exists (37 :: x :: y :: p), (16 * vx + vy :: d), r, e.
      repeat split; auto. now constructor.
Qed.

Lemma dref_app p d r : Encodes p d -> dref (p ++ r) = dapp d (dref r).
Proof.
  induction 1 as [|b t d V N1 N2 E IH|t d E IH|h l vh vl t d Hh Hl E IH]; cbn [dref app].
  - now rewrite dapp_nil.
  - apply N.eqb_neq in N1, N2. apply visible_true in V. rewrite N1, N2, V, IH, dapp_app. reflexivity.
  - change (43 =? 43) with true. cbn iota. now rewrite IH, dapp_app.
  - change (37 =? 43) with false. change (37 =? 37) with true. cbn iota.
    apply hex_digit_some in Hh, Hl. rewrite Hh, Hl, IH, hex_sum, dapp_app. reflexivity.
Qed.

Lemma dref_problem r e : DecodeProblem r e -> dref r = DErr e.
Proof.
  intros [b t V|r' x rest P].
  - cbn [dref]. assert (N1 : b <> 43) by (intros ->; apply V; unfold visible; lia).
    assert (N2 : b <> 37) by (intros ->; apply V; unfold visible; lia).
    apply N.eqb_neq in N1, N2. apply visible_false in V. now rewrite N1, N2, V.
  - destruct P as [|x|x y t N|x y t v H N]; cbn [dref];
      change (37 =? 43) with false; change (37 =? 37) with true; cbn iota; auto.
    + apply hex_digit_none in N. now rewrite N.
    + apply hex_digit_some in H. apply hex_digit_none in N. now rewrite H, N.
Qed.

Lemma decode_ok t d : decode t = DOk d <-> Encodes t d.
Proof.
  rewrite decode_ref. split; [|apply dref_encodes].
  intros H. destruct (decode_total t (S (List.length t)) (Nat.lt_succ_diag_r _))
    as [(d' & E)|(p & d' & r & e & -> & E & P)].
  - rewrite (dref_encodes _ _ E) in H. injection H as <-. exact E.
  - rewrite (dref_app _ _ _ E), (dref_problem _ _ P) in H. discriminate.
Qed.

Lemma decode_err t e : decode t = DErr e <->
  exists p d r, t = p ++ r /\ Encodes p d /\ DecodeProblem r e.
Proof.
  rewrite decode_ref. split.
  - intros H. destruct (decode_total t (S (List.length t)) (Nat.lt_succ_diag_r _))
      as [(d' & E)|(p & d' & r & e' & -> & E & P)].
    + rewrite (dref_encodes _ _ E) in H. discriminate.
    + rewrite (dref_app _ _ _ E), (dref_problem _ _ P) in H. injection H as <-. eauto 6.
  - intros (p & d & r & -> & E & P). now rewrite (dref_app _ _ _ E), (dref_problem _ _ P).
Qed.

Lemma decode_defined t : (exists d, decode t = DOk d) \/ (exists e, decode t = DErr e).
Proof.
  rewrite decode_ref. destruct (decode_total t (S (List.length t)) (Nat.lt_succ_diag_r _))
      as [(d' & E)|(p & d' & r & e' & -> & E & P)].
  - left. exists d'. now apply dref_encodes.
  - right. exists e'. now rewrite (dref_app _ _ _ E), (dref_problem _ _ P).
Qed.

Lemma problem_malformed r e : DecodeProblem r e -> malformed r.
Proof.
  intros [b t V|r' x rest P]; [now left|].
  destruct P as [|x|x y t N|x y t v H N]; right; split; auto;
    intros (h & l & vh & vl & t' & Et & Hh & Hl); inversion Et; subst.
  - now apply N in Hh.
  - now apply N in Hl.
Qed.

Lemma hex_visible b v : HexDigit b v -> visible b /\ b <> 37.
Proof.
  intros H. apply hex_digit_some in H. unfold hex_digit, is_digit in H. unfold visible.
  destruct ((48 <=? b) && (b <=? 57)) eqn:E1; [nbool; lia|].
  destruct ((64 <? b) && (b <? 71)) eqn:E2; [nbool; lia|].
  destruct ((96 <? b) && (b <? 103)) eqn:E3; [nbool; lia|discriminate].
Qed.

Lemma app_cons_split {X} (a : list X) : forall r x t, a ++ r = x :: t ->
  (a = [] /\ r = x :: t) \/ exists a', a = x :: a' /\ a' ++ r = t.
Proof.
  destruct a as [|y a]; simpl; intros r x t H; [auto|]. injection H as -> <-. eauto.
Qed.

Lemma encodes_not_malformed t d : Encodes t d -> forall a r, t = a ++ r -> ~ malformed r.
Proof.
  induction 1 as [|b t d V N1 N2 E IH|t d E IH|h l vh vl t d Hh Hl E IH]; intros a r Et M; symmetry in Et.
  - apply app_eq_nil in Et. destruct Et as [_ ->]. exact M.
  - apply app_cons_split in Et. destruct Et as [[_ ->]|(a' & _ & Et)].
    + cbn in M. tauto.
    + now apply (IH a' r).
  - apply app_cons_split in Et. destruct Et as [[_ ->]|(a' & _ & Et)].
    + cbn in M. unfold visible in M. destruct M as [M|[M _]]; [lia|discriminate].
    + now apply (IH a' r).
  - apply app_cons_split in Et. destruct Et as [[_ ->]|(a' & _ & Et)].
    { cbn in M. destruct M as [M|[_ M]]; [unfold visible in M; lia|].
      apply M. exists h, l, vh, vl, t. auto. }
    apply app_cons_split in Et. destruct Et as [[_ ->]|(a'' & _ & Et)].
    { apply hex_visible in Hh. cbn in M. tauto. }
    apply app_cons_split in Et. destruct Et as [[_ ->]|(a''' & _ & Et)].
    { apply hex_visible in Hl. cbn in M. tauto. }
    now apply (IH a''' r).
Qed.

Lemma decode_fails t : (exists e, decode t = DErr e) <-> exists a r, t = a ++ r /\ malformed r.
Proof.
  split.
  - intros (e & H). apply decode_err in H. destruct H as (p & d & r & -> & _ & P).
    exists p, r. split; auto. now apply problem_malformed in P.
  - intros (a & r & -> & M). destruct (decode_defined (a ++ r)) as [(d & H)|H]; [|exact H].
    apply decode_ok in H. exfalso. exact (encodes_not_malformed _ _ H a r eq_refl M).
Qed.

Lemma digit_hex up v : v < 16 -> HexDigit (digit up v) v.
Proof.
  intros H. apply hexb_true. unfold digit.
  destruct up.
  - exact (below 16 (fun v => hexb (nth (N.to_nat v) (bs "0123456789ABCDEF") 0) v) eq_refl v H).
  - exact (below 16 (fun v => hexb (nth (N.to_nat v) (bs "0123456789abcdef") 0) v) eq_refl v H).
Qed.

Lemma percent_encodes f d : octets d -> Encodes (percent_encode f d) d.
Proof.
  induction 1 as [|b d H O IH]; [constructor|]. cbn [percent_encode].
  replace b with (16 * (b / 16) + b mod 16) at 3 by (rewrite <- N.div_mod; lia).
  constructor; auto; apply digit_hex.
  - apply N.div_lt_upper_bound; lia.
  - apply N.mod_lt. lia.
Qed.

Lemma decode_percent f d : octets d -> decode (percent_encode f d) = DOk d.
Proof. intros H. apply decode_ok. now apply percent_encodes. Qed.

Lemma ascii_utf8 d : Forall (fun b => b <= 127) d -> Utf8 d.
Proof. induction 1; constructor; auto. Qed.

Lemma utf8_head b t : Utf8 (b :: t) -> b < 128 \/ 194 <= b <= 244.
Proof. inversion 1; subst; lia. Qed.

(* --------------------------------------------------------------- query *)

Lemma special_name b : ~ In b (bs "%+=&;") ->
  (b =? 37) = false /\ (b =? 43) = false /\ (b =? 61) = false /\ (b =? 38) = false /\ (b =? 59) = false.
Proof.
  cbn. intros H. repeat split; apply N.eqb_neq; intros ->; tauto.
Qed.

Lemma special_value b : ~ In b (bs "%+&;") ->
  (b =? 37) = false /\ (b =? 43) = false /\ (b =? 38) = false /\ (b =? 59) = false.
Proof.
  cbn. intros H. repeat split; apply N.eqb_neq; intros ->; tauto.
Qed.

Lemma special_name_inv b : In b (bs "%+=&;") \/ ~ In b (bs "%+=&;").
Proof. destruct (in_dec N.eq_dec b (bs "%+=&;")); auto. Qed.

Lemma separator_eqb s : separator s -> ((s =? 38) || (s =? 59)) = true.
Proof. intros [->| ->]; reflexivity. Qed.

Lemma not_visible_eqb b : ~ visible b ->
  is_visible_7bit b = false /\
  (b =? 37) = false /\ (b =? 43) = false /\ (b =? 61) = false /\ (b =? 38) = false /\ (b =? 59) = false.
Proof.
  intros H. split; [now apply visible_false|]. unfold visible in H.
  repeat split; apply N.eqb_neq; lia.
Qed.

Lemma qvref_value u v : QValue u v -> forall r n acc, qvref (u ++ r) n acc = qvref r n (acc ++ v).
Proof.
  induction 1 as [|b t v V N E IH|t v E IH|h l vh vl t v Hh Hl E IH]; intros r n acc; cbn [app].
  - now rewrite app_nil_r.
  - cbn [qvref]. destruct (special_value _ N) as (-> & -> & -> & ->). apply visible_true in V. rewrite V.
    cbn [orb]. rewrite IH, <- app_assoc. reflexivity.
  - cbn [qvref]. change (43 =? 43) with true. cbn iota. rewrite IH, <- app_assoc. reflexivity.
  - cbn [qvref]. change (37 =? 43) with false. change (37 =? 37) with true. cbn iota.
    apply hex_digit_some in Hh, Hl. rewrite Hh, Hl, IH, hex_sum, <- app_assoc. reflexivity.
Qed.

Lemma qnref_name t n : QName t n -> forall i r acc,
  qnref i (t ++ r) acc = qnref (i + List.length t) r (acc ++ n).
Proof.
  induction 1 as [|b t v V N E IH|t v E IH]; intros i r acc; cbn [app List.length].
  - now rewrite app_nil_r, Nat.add_0_r.
  - cbn [qnref]. destruct (special_name _ N) as (-> & -> & -> & -> & ->). apply visible_true in V. rewrite V.
    cbn [orb]. rewrite IH, <- app_assoc. f_equal. lia.
  - cbn [qnref]. change (43 =? 43) with true. cbn iota. rewrite IH, <- app_assoc. f_equal. lia.
Qed.

Lemma qvref_escape r x r' n acc : EscapeProblem r x r' -> qvref r n acc = (NNone, [EValue x], r').
Proof.
  intros [|x0|x0 y t N|x0 y t v H N]; cbn [qvref];
    change (37 =? 43) with false; change (37 =? 37) with true; cbn iota; auto.
  - apply hex_digit_none in N. now rewrite N.
  - apply hex_digit_some in H. apply hex_digit_none in N. now rewrite H, N.
Qed.

Lemma qnref_escape i r x r' acc : EscapeProblem r x r' -> qnref i r acc = (NNone, [EName x], r').
Proof.
  intros [|x0|x0 y t N|x0 y t v H N]; cbn [qnref];
    change (37 =? 43) with false; change (37 =? 37) with true; cbn iota; auto.
  - apply hex_digit_none in N. now rewrite N.
  - apply hex_digit_some in H. apply hex_digit_none in N. now rewrite H, N.
Qed.

Lemma qname_length t n : QName t n -> List.length t = List.length n.
Proof. induction 1; simpl; congruence. Qed.

Lemma qref_nonempty i r : r <> [] -> qref i r = qnref i r [].
Proof. destruct r; [congruence|reflexivity]. Qed.

Lemma guard i (t : list byte) : ((i =? 0)%nat = true -> t <> []) -> (i + List.length t =? 0)%nat = false.
Proof.
  intros H. apply Nat.eqb_neq. intros E. destruct t; [|cbn in E; lia].
  cbn in E. rewrite Nat.add_0_r in E. subst i. now apply H.
Qed.

Lemma query_step i t r e rest : QueryStep (i =? 0)%nat t r e rest -> qref i t = (r, e, rest).
Proof.
  intros H. destruct H as
    [ | t n Q NE | t n s r Q S G | t n u v Q V G | t n u v s r Q V S G | b r F B | t n b r Q B
    | t n u v b r Q V B G | t n r x r' Q P | t n u v r x r' Q V P G | t n h l vh vl r Q Hh Hl ].
  - reflexivity.
  - rewrite qref_nonempty by auto. rewrite <- (app_nil_r t), (qnref_name _ _ Q). reflexivity.
  - rewrite qref_nonempty by (intros E; now apply app_eq_nil in E as [_ ?]).
    rewrite (qnref_name _ _ Q). cbn [qnref]. rewrite (guard _ _ G), (separator_eqb _ S).
    destruct S as [-> | ->]; reflexivity.
  - rewrite qref_nonempty by (intros E; now apply app_eq_nil in E as [_ ?]).
    rewrite (qnref_name _ _ Q). cbn [qnref]. rewrite (guard _ _ G).
    change (61 =? 43) with false. change (61 =? 37) with false. change (61 =? 61) with true. cbn iota.
    rewrite <- (app_nil_r u), (qvref_value _ _ V). reflexivity.
  - rewrite qref_nonempty by (intros E; now apply app_eq_nil in E as [_ ?]).
    rewrite (qnref_name _ _ Q). cbn [qnref]. rewrite (guard _ _ G).
    change (61 =? 43) with false. change (61 =? 37) with false. change (61 =? 61) with true. cbn iota.
    rewrite (qvref_value _ _ V). cbn [qvref]. rewrite (separator_eqb _ S).
    destruct S as [-> | ->]; reflexivity.
  - cbn [qref qnref]. rewrite F. destruct B as [-> | [-> | ->]]; reflexivity.
  - rewrite qref_nonempty by (intros E; now apply app_eq_nil in E as [_ ?]).
    rewrite (qnref_name _ _ Q). cbn [qnref].
    destruct (not_visible_eqb _ B) as (-> & -> & -> & -> & -> & ->). reflexivity.
  - rewrite qref_nonempty by (intros E; now apply app_eq_nil in E as [_ ?]).
    rewrite (qnref_name _ _ Q). cbn [qnref]. rewrite (guard _ _ G).
    change (61 =? 43) with false. change (61 =? 37) with false. change (61 =? 61) with true. cbn iota.
    rewrite (qvref_value _ _ V). cbn [qvref].
    destruct (not_visible_eqb _ B) as (-> & -> & -> & _ & -> & ->). reflexivity.
  - assert (r <> []) by (destruct P; discriminate).
    rewrite qref_nonempty by (intros E; now apply app_eq_nil in E as [_ ?]).
    rewrite (qnref_name _ _ Q). now apply qnref_escape.
  - rewrite qref_nonempty by (intros E; now apply app_eq_nil in E as [_ ?]).
    rewrite (qnref_name _ _ Q). cbn [qnref]. rewrite (guard _ _ G).
    change (61 =? 43) with false. change (61 =? 37) with false. change (61 =? 61) with true. cbn iota.
    rewrite (qvref_value _ _ V). now apply qvref_escape.
  - rewrite qref_nonempty by (intros E; now apply app_eq_nil in E as [_ ?]).
    rewrite (qnref_name _ _ Q). cbn [qnref]. change (37 =? 43) with false. change (37 =? 37) with true. cbn iota.
    apply hex_digit_some in Hh, Hl. now rewrite Hh, Hl.
Qed.

(* how a text continues after a maximal name, or after a maximal value *)
Inductive name_tail : list byte -> Prop :=
| nt_end : name_tail []
| nt_sep s r : separator s -> name_tail (s :: r)
| nt_eq r : name_tail (61 :: r)
| nt_byte b r : ~ visible b -> name_tail (b :: r)
| nt_esc r x r' : EscapeProblem r x r' -> name_tail r
| nt_hex h l vh vl r : HexDigit h vh -> HexDigit l vl -> name_tail (37 :: h :: l :: r).

Lemma escape_cases t : (exists x r', EscapeProblem (37 :: t) x r') \/
  exists h l vh vl r, t = h :: l :: r /\ HexDigit h vh /\ HexDigit l vl.
Proof.
  destruct t as [|x [|y t]].
  - left. exists 37, []. constructor.
  - left. exists x, []. constructor.
  - destruct (hex_dec x) as [[vx Hx]|Nx]; [|left; exists x, (y :: t); now constructor].
    destruct (hex_dec y) as [[vy Hy]|Ny]; [|left; exists y, t; now apply ep_lo with vx].
    right. exists x, y, vx, vy, t. auto.
Qed.

Lemma name_split t : exists p n r, t = p ++ r /\ QName p n /\ name_tail r.
Proof.
  induction t as [|b t (p & n & r & -> & Q & T)].
  - exists [], [], []. repeat split; constructor.
  - destruct (visible_dec b) as [V|V].
    2:{ exists [], [], (b :: p ++ r). repeat split; [constructor|now apply nt_byte]. }
    destruct (N.eq_dec b 37) as [->|N1].
    { destruct (escape_cases (p ++ r)) as [(x & r' & P)|(h & l & vh & vl & r' & E & Hh & Hl)].
      - exists [], [], (37 :: p ++ r). repeat split; [constructor|]. now apply nt_esc with x r'.
      - exists [], [], (37 :: p ++ r). repeat split; [constructor|]. rewrite E. now apply nt_hex with vh vl. }
    destruct (N.eq_dec b 43) as [->|N2].
    { exists (43 :: p), (32 :: n), r. repeat split; auto. now constructor. }
    destruct (N.eq_dec b 61) as [->|N3].
    { exists [], [], (61 :: p ++ r). repeat split; [constructor|apply nt_eq]. }
    destruct (N.eq_dec b 38) as [->|N4].
    { exists [], [], (38 :: p ++ r). repeat split; constructor. now left. }
    destruct (N.eq_dec b 59) as [->|N5].
    { exists [], [], (59 :: p ++ r). repeat split; constructor. now right. }
    exists (b :: p), (b :: n), r. repeat split; auto. constructor; auto.
    cbn. intuition congruence.
Qed.

Inductive value_tail : list byte -> Prop :=
| vt_end : value_tail []
| vt_sep s r : separator s -> value_tail (s :: r)
| vt_byte b r : ~ visible b -> value_tail (b :: r)
| vt_esc r x r' : EscapeProblem r x r' -> value_tail r.

Lemma value_split k : forall t, (List.length t < k)%nat ->
  exists p v r, t = p ++ r /\ QValue p v /\ value_tail r.
Proof.
  induction k as [|k IH]; intros t L; [lia|].
  destruct t as [|b t].
  - exists [], [], []. repeat split; constructor.
  - cbn [List.length] in L.
    destruct (visible_dec b) as [V|V].
    2:{ exists [], [], (b :: t). repeat split; [constructor|now apply vt_byte]. }
    destruct (N.eq_dec b 37) as [->|N1].
    { destruct (escape_cases t) as [(x & r' & P)|(h & l & vh & vl & r' & -> & Hh & Hl)].
      - exists [], [], (37 :: t). repeat split; [constructor|]. now apply vt_esc with x r'.
      - cbn [List.length] in L. destruct (IH r' ltac:(lia)) as (p & v & r & -> & Q & T).
        exists (37 :: h :: l :: p), (16 * vh + vl :: v), r. repeat split; auto. now constructor. }
    destruct (N.eq_dec b 38) as [->|N4].
    { exists [], [], (38 :: t). repeat split; constructor. now left. }
    destruct (N.eq_dec b 59) as [->|N5].
    { exists [], [], (59 :: t). repeat split; constructor. now right. }
    destruct (IH t ltac:(lia)) as (p & v & r & -> & Q & T).
    destruct (N.eq_dec b 43) as [->|N2].
    { exists (43 :: p), (32 :: v), r. repeat split; auto. now constructor. }
    exists (b :: p), (b :: v), r. repeat split; auto. constructor; auto.
    cbn. intuition congruence.
Qed.

Lemma query_total first t : exists r e rest, QueryStep first t r e rest.
Proof.
  destruct (name_split t) as (p & n & r & -> & Q & T).
  assert (D : (first = true -> p <> []) \/ (first = true /\ p = [])).
  { destruct first; [|left; discriminate]. destruct p; [right; auto|left; congruence]. }
  destruct T as [|s r S|r|b r V|r x r' P|h l vh vl r Hh Hl].
  - rewrite app_nil_r. destruct p as [|b p]; [do 3 eexists; apply qs_end|].
    do 3 eexists. apply qs_name_end; [exact Q|congruence].
  - destruct D as [D|[D ->]]; do 3 eexists.
    + apply qs_name_sep; eassumption.
    + apply qs_bad_start; auto.
  - destruct D as [D|[D ->]].
    + destruct (value_split _ r (Nat.lt_succ_diag_r _)) as (u & v & r' & -> & V & T).
      destruct T as [|s r S|b r W|r x r' P].
      * rewrite app_nil_r. do 3 eexists. apply qs_value_end; eassumption.
      * do 3 eexists. eapply qs_value_sep; eassumption.
      * do 3 eexists. eapply qs_value_byte; eassumption.
      * do 3 eexists. eapply qs_value_escape; eassumption.
    + do 3 eexists. apply qs_bad_start; auto.
  - do 3 eexists. eapply qs_name_byte; eassumption.
  - do 3 eexists. eapply qs_name_escape; eassumption.
  - do 3 eexists. eapply qs_name_hex; eassumption.
Qed.
