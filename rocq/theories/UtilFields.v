(* FieldIterator: the reference functions of UtilRef.v meet the specification
   of UtilSpec.v; iteration of both iterators. *)

From Coq Require Import NArith List Bool Arith Lia String.
From Verif Require Import Bytes ByteStream UtilModel UtilSpec UtilRef UtilFacts.
Import ListNotations.
Local Open Scope N_scope.
Local Open Scope list_scope.

Lemma token_not b : token b -> ~ ws b /\ b <> 61 /\ b <> 47.
Proof.
  unfold token, ws. cbn. intros H. repeat destruct H as [H|H]; try (subst b; lia); lia.
Qed.

Lemma upper_token b : upper b -> token b.
Proof. unfold upper, token. tauto. Qed.

Lemma slash_not_token : ~ token 47.
Proof. intros H. apply token_not in H. tauto. Qed.

Lemma eq_not_token : ~ token 61.
Proof. intros H. apply token_not in H. tauto. Qed.

Ltac neqb H := apply N.eqb_neq in H; rewrite H.

Lemma fnref_fname norm d t n s : FName norm d t n s -> forall r acc,
  fnref d norm true (t ++ r) acc = fnref d norm s r (acc ++ n).
Proof.
  induction 1 as [|t n b F IH W|t n s b F IH T Nd Nu|t n s F IH|t n s b F IH Hn U Nd]; intros r acc.
  - now rewrite app_nil_r.
  - rewrite <- app_assoc, IH. cbn [app fnref]. apply isws_true in W. now rewrite W.
  - rewrite <- app_assoc, IH. cbn [app fnref]. destruct (token_not _ T) as (NW & N61 & N47).
    apply isws_false in NW. rewrite NW, andb_false_r, (is_token_true _ T).
    neqb N61. neqb Nd. neqb N47.
    assert (NU : norm && is_upper b = false).
    { destruct norm; [|reflexivity]. apply upper_false. tauto. }
    rewrite NU. cbn [negb orb]. now rewrite app_assoc.
  - rewrite <- app_assoc, IH. cbn [app fnref].
    change (isws 47) with false. rewrite andb_false_r, (is_token_false 47 ltac:(lia) slash_not_token).
    cbn [negb orb]. change (47 =? 61) with false. change (47 =? 47) with true. cbn iota.
    now rewrite app_assoc.
  - rewrite <- app_assoc, IH. cbn [app fnref]. destruct (token_not _ (upper_token _ U)) as (NW & N61 & N47).
    apply isws_false in NW. rewrite NW, andb_false_r, (is_token_true _ (upper_token _ U)).
    neqb N61. neqb Nd. neqb N47. apply upper_true in U. rewrite Hn, U. cbn [negb orb andb].
    now rewrite app_assoc.
Qed.

Lemma fvref_ws d w : Forall ws w -> forall r n, fvref d (w ++ r) n = fvref d r n.
Proof.
  induction 1 as [|b w W F IH]; intros; [reflexivity|]. cbn [app fvref].
  apply isws_true in W. now rewrite W.
Qed.

Lemma fclose_ws d w : Forall ws w -> forall r n v, fclose d (w ++ r) n v = fclose d r n v.
Proof.
  induction 1 as [|b w W F IH]; intros; [reflexivity|]. cbn [app fclose].
  apply isws_true in W. now rewrite W.
Qed.

Lemma furef_plain d v : FPlain d v -> forall r n acc, furef d (v ++ r) n acc = furef d r n (acc ++ v).
Proof.
  induction 1 as [|b v [B Nd] F IH]; intros; [now rewrite app_nil_r|]. cbn [app furef].
  rewrite (is_field_true _ B). neqb Nd. cbn [negb orb]. rewrite IH, <- app_assoc. reflexivity.
Qed.

Lemma fqref_quoted d q v : FQuoted q v -> forall cb r n acc,
  fqref d cb (q ++ r) n acc = fqref d (last q cb) r n (acc ++ v).
Proof.
  induction 1 as [|b t v B N F IH|x t v F IH]; intros; [now rewrite app_nil_r| |]; cbn [app fqref].
  - rewrite (is_quoted_true _ B N), IH, <- app_assoc, last_cons. reflexivity.
  - rewrite (is_quoted_false 92 ltac:(lia) (or_intror eq_refl)).
    change (92 =? 34) with false. change (92 =? 92) with true. cbn iota.
    rewrite IH, <- app_assoc, !last_cons. reflexivity.
Qed.

Lemma fvref_plain d b r n : ~ ws b -> b <> 34 -> fvref d (b :: r) n = furef d (b :: r) n [].
Proof. intros W Q. cbn [fvref]. apply isws_false in W. rewrite W. now neqb Q. Qed.

Lemma fvref_value d v r n : FPlain d v -> starts_plain v ->
  (v = [] -> match r with [] => False | b :: _ => ~ ws b /\ b <> 34 end) ->
  fvref d (v ++ r) n = furef d r n v.
Proof.
  intros F S G. destruct v as [|b v].
  - destruct r as [|b r]; [now specialize (G eq_refl)|]. cbn [app].
    destruct (G eq_refl) as [W Q]. now rewrite fvref_plain.
  - cbn [app]. destruct S as [W Q]. rewrite fvref_plain by auto.
    change (b :: v ++ r) with ((b :: v) ++ r). rewrite furef_plain by auto. reflexivity.
Qed.

Lemma not_value_34 : ~ value_byte 34.
Proof. unfold value_byte. lia. Qed.

Lemma ws_value b : ws b -> value_byte b.
Proof. unfold ws, value_byte. lia. Qed.

Lemma fnref_eq norm d s r n : fnref d norm s (61 :: r) n = fvref d r n.
Proof.
  cbn [fnref]. change (isws 61) with false.
  rewrite andb_false_r, (is_token_false 61 ltac:(lia) eq_not_token). reflexivity.
Qed.

Lemma fvref_quote d r n : fvref d (34 :: r) n = fqref d 34 r n [].
Proof. reflexivity. Qed.

Lemma fqref_close d cb r n v : fqref d cb (34 :: r) n v = fclose d r n v.
Proof.
  cbn [fqref]. rewrite (is_quoted_false 34 ltac:(lia) (or_introl not_value_34)). reflexivity.
Qed.

Lemma field_step norm d t r e rest : FieldStep norm d t r e rest ->
  exists rest', fnref d norm true t [] = (r, e, rest') /\ (r <> NPanic -> rest' = rest).
Proof.
  intros H.
  destruct H as
   [ t n F | t n F | t n s r F (D255 & D61 & D47 & Dws) | t n s b r F B T Nd N61 N47 W | t n s w F W | t n s w v F W P S NE
   | t n s w v r F W P S (D255 & DV) | t n s w v b r F W P S N34 B NV Nd
   | t n s w q v w' F W Q W' | t n s w q v w' b F W Q W' Nb | t n s w q v w' b r F W Q W' Nb
   | t n s w q v w' b b' r F W Q W' Nb Nd | t n s w q v F W Q | t n s w q v F W Q
   | t n s w q v b r F W Q B NV N34 | t n s r rest F | t n s w v r rest F W P S | t n s w q v r rest F W Q ].
  - exists []. split; auto. rewrite <- (app_nil_r t), (fnref_fname _ _ _ _ _ F). reflexivity.
  - exists []. split; auto. rewrite <- (app_nil_r t), (fnref_fname _ _ _ _ _ F). reflexivity.
  - exists r. split; auto. rewrite (fnref_fname _ _ _ _ _ F). cbn [fnref].
    assert (E : s && isws d = false).
    { destruct s; [|reflexivity]. apply isws_false. tauto. }
    rewrite E, token_table by auto.
    neqb D61. neqb D47. rewrite N.eqb_refl, !orb_true_r. reflexivity.
  - exists []. split; auto. rewrite (fnref_fname _ _ _ _ _ F). cbn [fnref].
    assert (E : s && isws b = false).
    { destruct s; [|reflexivity]. apply isws_false. tauto. }
    rewrite E, (is_token_false _ B T). cbn [negb orb]. neqb N61. neqb N47. neqb Nd.
    assert (NU : is_upper b = false) by (apply upper_false; intros U; apply T; now apply upper_token).
    rewrite NU. reflexivity.
  - exists []. split; auto. rewrite (fnref_fname _ _ _ _ _ F), fnref_eq by auto.
    rewrite <- (app_nil_r w), fvref_ws by auto. reflexivity.
  - exists []. split; auto. rewrite (fnref_fname _ _ _ _ _ F), fnref_eq, fvref_ws by auto.
    rewrite <- (app_nil_r v), fvref_value by (rewrite ?app_nil_r; tauto).
    cbn [furef app]. now rewrite app_nil_r.
  - exists r. split; auto. rewrite (fnref_fname _ _ _ _ _ F), fnref_eq, fvref_ws by auto.
    rewrite fvref_value by tauto. cbn [furef]. rewrite field_table by auto.
    rewrite N.eqb_refl, orb_true_r. reflexivity.
  - exists []. split; auto. rewrite (fnref_fname _ _ _ _ _ F), fnref_eq, fvref_ws by auto.
    rewrite fvref_value; auto.
    2:{ intros E. split; [|auto]. intros Wb. now apply ws_value in Wb. }
    cbn [furef]. rewrite (is_field_false _ B NV). cbn [negb orb]. now neqb Nd.
  - exists []. split; auto. rewrite (fnref_fname _ _ _ _ _ F), fnref_eq, fvref_ws by auto.
    rewrite fvref_quote, (fqref_quoted _ _ _ Q), fqref_close.
    rewrite <- (app_nil_r w'), fclose_ws by auto. reflexivity.
  - exists []. split; auto. rewrite (fnref_fname _ _ _ _ _ F), fnref_eq, fvref_ws by auto.
    rewrite fvref_quote, (fqref_quoted _ _ _ Q), fqref_close, fclose_ws by auto.
    cbn [fclose]. apply isws_false in Nb. now rewrite Nb.
  - exists r. split; auto. rewrite (fnref_fname _ _ _ _ _ F), fnref_eq, fvref_ws by auto.
    rewrite fvref_quote, (fqref_quoted _ _ _ Q), fqref_close, fclose_ws by auto.
    cbn [fclose]. apply isws_false in Nb. now rewrite Nb, N.eqb_refl.
  - exists []. split; auto. rewrite (fnref_fname _ _ _ _ _ F), fnref_eq, fvref_ws by auto.
    rewrite fvref_quote, (fqref_quoted _ _ _ Q), fqref_close, fclose_ws by auto.
    cbn [fclose]. apply isws_false in Nb. rewrite Nb. now neqb Nd.
  - exists []. split; auto. rewrite (fnref_fname _ _ _ _ _ F), fnref_eq, fvref_ws by auto.
    rewrite fvref_quote. rewrite <- (app_nil_r q) at 1. rewrite (fqref_quoted _ _ _ Q). reflexivity.
  - exists []. split; auto. rewrite (fnref_fname _ _ _ _ _ F), fnref_eq, fvref_ws by auto.
    rewrite fvref_quote, (fqref_quoted _ _ _ Q). cbn [fqref].
    rewrite (is_quoted_false 92 ltac:(lia) (or_intror eq_refl)). reflexivity.
  - exists []. split; auto. rewrite (fnref_fname _ _ _ _ _ F), fnref_eq, fvref_ws by auto.
    rewrite fvref_quote, (fqref_quoted _ _ _ Q). cbn [fqref].
    rewrite (is_quoted_false _ B (or_introl NV)). neqb N34.
    assert (N92 : b <> 92) by (intros ->; apply NV; unfold value_byte; lia).
    now neqb N92.
  - exists r. split; [|congruence]. rewrite (fnref_fname _ _ _ _ _ F). cbn [fnref].
    change (isws 255) with false. rewrite andb_false_r, is_token_none by lia. reflexivity.
  - exists r. split; [|congruence]. rewrite (fnref_fname _ _ _ _ _ F), fnref_eq, fvref_ws by auto.
    rewrite fvref_value by (auto || (intros _; unfold ws; lia)).
    cbn [furef]. rewrite is_field_none by lia. reflexivity.
  - exists r. split; [|congruence]. rewrite (fnref_fname _ _ _ _ _ F), fnref_eq, fvref_ws by auto.
    rewrite fvref_quote, (fqref_quoted _ _ _ Q). cbn [fqref]. rewrite is_quoted_none by lia. reflexivity.
Qed.

(* ------------------------------------------------------------- totality *)

Inductive fname_tail (d : byte) (s : bool) : list byte -> Prop :=
| ft_end : fname_tail d s []
| ft_delim r : ends_name d s -> fname_tail d s (d :: r)
| ft_eq r : fname_tail d s (61 :: r)
| ft_255 r : fname_tail d s (255 :: r)
| ft_bad b r : b < 255 -> ~ token b -> b <> d -> b <> 61 -> b <> 47 -> ~ (s = true /\ ws b) ->
    fname_tail d s (b :: r).

Lemma fname_split norm d : forall t, octets t -> forall p n s, FName norm d p n s ->
  exists p' n' s' r, p ++ t = p' ++ r /\ FName norm d p' n' s' /\ fname_tail d s' r.
Proof.
  induction 1 as [|b t B O IH]; intros p n s F.
  - exists p, n, s, []. repeat split; auto. constructor.
  - assert (Step : forall n' s', FName norm d (p ++ [b]) n' s' ->
      exists p' n' s' r, p ++ b :: t = p' ++ r /\ FName norm d p' n' s' /\ fname_tail d s' r).
    { intros n' s' F'. specialize (IH _ _ _ F'). rewrite <- app_assoc in IH. exact IH. }
    assert (Stop : fname_tail d s (b :: t) ->
      exists p' n' s' r, p ++ b :: t = p' ++ r /\ FName norm d p' n' s' /\ fname_tail d s' r).
    { intros T. exists p, n, s, (b :: t). auto. }
    destruct (N.eq_dec b 61) as [->|N61]; [apply Stop, ft_eq|].
    destruct (N.eq_dec b 255) as [->|N255]; [apply Stop, ft_255|].
    destruct (N.eq_dec b 47) as [->|N47]; [eapply Step, fn_slash, F|].
    destruct (N.eq_dec b d) as [->|Nd].
    { destruct s; [destruct (ws_dec d) as [W|W]; [eapply Step, fn_ws; eauto|]|];
        (apply Stop, ft_delim; repeat split; auto; [lia|]); [tauto|intros [? _]; discriminate]. }
    destruct (token_dec b) as [T|T].
    + destruct norm.
      * destruct (upper_dec b) as [U|U].
        -- eapply Step, fn_upper; eauto.
        -- eapply Step, fn_token; eauto. tauto.
      * eapply Step, fn_token; eauto. intros [? _]. discriminate.
    + destruct s.
      * destruct (ws_dec b) as [W|W].
        -- eapply Step, fn_ws; eauto.
        -- apply Stop, ft_bad; auto; [lia|tauto].
      * apply Stop, ft_bad; auto; [lia|]. intros [? _]. discriminate.
Qed.

Lemma ws_split t : exists w r, t = w ++ r /\ Forall ws w /\
  match r with [] => True | b :: _ => ~ ws b end.
Proof.
  induction t as [|b t (w & r & -> & W & H)].
  - exists [], []. auto.
  - destruct (ws_dec b) as [Wb|Wb].
    + exists (b :: w), r. auto.
    + exists [], (b :: w ++ r). auto.
Qed.

Inductive fplain_tail (d : byte) : list byte -> Prop :=
| pt_end : fplain_tail d []
| pt_delim r : fplain_tail d (d :: r)
| pt_255 r : fplain_tail d (255 :: r)
| pt_bad b r : b < 255 -> ~ value_byte b -> b <> d -> fplain_tail d (b :: r).

Lemma fplain_split d t : octets t -> exists v r, t = v ++ r /\ FPlain d v /\ fplain_tail d r.
Proof.
  induction 1 as [|b t B O (v & r & -> & P & T)].
  - exists [], []. repeat split; constructor.
  - destruct (N.eq_dec b d) as [->|Nd]; [exists [], (d :: v ++ r); repeat split; constructor|].
    destruct (N.eq_dec b 255) as [->|N255]; [exists [], (255 :: v ++ r); repeat split; constructor|].
    destruct (value_dec b) as [V|V].
    + exists (b :: v), r. repeat split; auto. now constructor.
    + exists [], (b :: v ++ r). repeat split; [constructor|]. apply pt_bad; auto. lia.
Qed.

Inductive fquoted_tail : list byte -> Prop :=
| qt_end : fquoted_tail []
| qt_close r : fquoted_tail (34 :: r)
| qt_slash : fquoted_tail [92]
| qt_255 r : fquoted_tail (255 :: r)
| qt_bad b r : b < 255 -> ~ value_byte b -> b <> 34 -> fquoted_tail (b :: r).

Lemma fquoted_split k : forall t, (List.length t < k)%nat -> octets t ->
  exists q v r, t = q ++ r /\ FQuoted q v /\ fquoted_tail r.
Proof.
  induction k as [|k IH]; intros t L O; [lia|]. destruct O as [|b t B O].
  - exists [], [], []. repeat split; constructor.
  - cbn [List.length] in L.
    destruct (N.eq_dec b 34) as [->|N34]; [exists [], [], (34 :: t); repeat split; constructor|].
    destruct (N.eq_dec b 255) as [->|N255]; [exists [], [], (255 :: t); repeat split; constructor|].
    destruct (N.eq_dec b 92) as [->|N92].
    { destruct O as [|x t X O]; [exists [], [], [92]; repeat split; constructor|].
      cbn [List.length] in L. destruct (IH t ltac:(lia) O) as (q & v & r & -> & Q & T).
      exists (92 :: x :: q), (x :: v), r. repeat split; auto. now constructor. }
    destruct (value_dec b) as [V|V].
    + destruct (IH t ltac:(lia) O) as (q & v & r & -> & Q & T).
      exists (b :: q), (b :: v), r. repeat split; auto. now constructor.
    + exists [], [], (b :: t). repeat split; [constructor|]. apply qt_bad; auto. lia.
Qed.

Lemma octets_app a b : octets (a ++ b) -> octets a /\ octets b.
Proof. apply Forall_app. Qed.

Lemma field_total norm d t : octets t ->
  exists r e rest, FieldStep norm d t r e rest.
Proof.
  intros O.
  destruct (fname_split norm d t O [] [] true (fn_start _ _)) as (p & n & s & r & E & F & T).
  cbn [app] in E. subst t. apply octets_app in O. destruct O as [_ O].
  destruct T as [|r En|r|r|b r B NT Nd N61 N47 W].
  - rewrite app_nil_r. destruct s; do 3 eexists; [eapply fs_none|eapply fs_name_end]; exact F.
  - do 3 eexists. eapply fs_name_delim; eassumption.
  - inversion O as [|x y _ O']; subst. clear O.
    destruct (ws_split r) as (w & r' & -> & W & H). apply octets_app in O'. destruct O' as [_ O'].
    destruct r' as [|b r'].
    { rewrite app_nil_r. do 3 eexists. eapply fs_no_value; eassumption. }
    destruct (N.eq_dec b 34) as [->|N34].
    + inversion O' as [|x y _ O]; subst.
      destruct (fquoted_split _ r' (Nat.lt_succ_diag_r _) O) as (q & v & r & -> & Q & T).
      destruct T as [|r| |r|b r B V N34].
      * rewrite app_nil_r. do 3 eexists. eapply fs_quoted_open; eassumption.
      * destruct (ws_split r) as (w' & r' & -> & W' & H').
        destruct r' as [|b [|b' r']].
        -- rewrite app_nil_r. do 3 eexists. eapply fs_quoted_end; eassumption.
        -- do 3 eexists. eapply fs_quoted_any; eassumption.
        -- destruct (N.eq_dec b' d) as [->|Nd]; do 3 eexists.
           ++ eapply fs_quoted_delim; eassumption.
           ++ eapply fs_quoted_bad; eassumption.
      * do 3 eexists. eapply fs_quoted_slash; eassumption.
      * exists NPanic, [], []. eapply fs_panic_quoted; eassumption.
      * do 3 eexists. eapply fs_quoted_byte; eassumption.
    + destruct (fplain_split d (b :: r') O') as (v & r & E & P & T).
      assert (S : starts_plain v).
      { destruct v as [|x v]; [exact I|]. injection E as <- _. split; auto. }
      rewrite E. destruct T as [|r|r|x r B V Nd].
      * rewrite app_nil_r. do 3 eexists. eapply fs_value_end; try eassumption.
        intros ->. discriminate.
      * destruct (N.eq_dec d 255) as [->|N255].
        { exists NPanic, [], []. eapply fs_panic_value; eassumption. }
        do 3 eexists. eapply fs_value_delim; try eassumption. split.
        -- assert (In d (b :: r')) as Id by (rewrite E; apply in_or_app; right; now left).
           unfold octets in O'. rewrite Forall_forall in O'. specialize (O' _ Id). cbn in O'. lia.
        -- intros ->. injection E as -> _. auto.
      * exists NPanic, [], []. eapply fs_panic_value; eassumption.
      * do 3 eexists. eapply fs_value_bad; try eassumption.
        intros ->. injection E as -> _. auto.
  - exists NPanic, [], []. eapply fs_panic_name; eassumption.
  - do 3 eexists. eapply fs_name_bad; eassumption.
Qed.
