(* Proofs of C73: readings of URL-encoded bodies (Http1Reader.v) against steps of
   QueryIterator (UtilSpec.v), and steps of QueryIterator against decode. *)

From Coq Require Import NArith List Bool Arith Lia String.
From Verif Require Import Bytes ByteStream Http1Model Http1Spec Http1Wire Http1Reader Http1Understood.
From Verif Require Import Http1Accept Http1Parse4.
From Verif Require Import UtilModel UtilSpec UtilFacts UtilIter Agree.
Import ListNotations.
Local Open Scope N_scope.
Local Open Scope list_scope.

(* ------------------------------------------------------------- bytes *)

Lemma hex_digit_val b v : hex_digit b = Some v -> Http1Reader.hexb b = true /\ hexval b = v.
Proof.
  unfold hex_digit, is_digit, Http1Reader.hexb, digitb, hexval.
  repeat match goal with
  | |- context [?x <? ?y] => destruct (N.ltb_spec x y)
  | |- context [?x <=? ?y] => destruct (N.leb_spec x y)
  end; cbn; intros E; try discriminate; try (injection E as <-); split; try reflexivity; try lia.
Qed.
Lemma hex_digit_not b : hex_digit b = None -> Http1Reader.hexb b = false.
Proof.
  unfold hex_digit, is_digit, Http1Reader.hexb, digitb.
  repeat match goal with
  | |- context [?x <? ?y] => destruct (N.ltb_spec x y)
  | |- context [?x <=? ?y] => destruct (N.leb_spec x y)
  end; cbn; intros E; try discriminate; try reflexivity; lia.
Qed.
Lemma Hex_val b v : HexDigit b v -> Http1Reader.hexb b = true /\ hexval b = v.
Proof. intros H. apply hex_digit_val. now apply hex_digit_some. Qed.
Lemma Hex_not b : not_hex b -> Http1Reader.hexb b = false.
Proof. intros H. apply hex_digit_not. now apply hex_digit_none. Qed.
Lemma visible_vb b : visible b -> visible_byte b = true.
Proof. intros H. now apply visible_true. Qed.
Lemma visible_nb b : ~ visible b -> visible_byte b = false.
Proof. intros H. now apply visible_false. Qed.

Lemma notin_existsb b l : ~ In b l -> existsb (N.eqb b) l = false.
Proof.
  intros H. destruct (existsb (N.eqb b) l) eqn:E; [|reflexivity]. exfalso. apply H.
  apply existsb_exists in E. destruct E as (x & I & E). apply N.eqb_eq in E. now subst.
Qed.

(* ------------------------------------------------------------- names and values *)

Section Decoded.
  Context (a1 a2 a3 : pstate) (d : dkind) (err : byte -> perror) (k : byte -> reader).

  Lemma decoded_name t n : QName t n -> forall l r,
    decoded a1 a2 a3 d err (bs "=&;") k l (t ++ r) =
    decoded a1 a2 a3 d err (bs "=&;") k (l ++ map (FByte d) n) r.
  Proof.
    induction 1 as [|b t n V I Q IH|t n Q IH]; intros l r; cbn [map app].
    - now rewrite app_nil_r.
    - cbn [decoded].
      assert (b <> 37 /\ b <> 43 /\ ~ In b (bs "=&;")) as (A & B & C).
      { repeat split; [intros -> ..|intros X]; apply I; cbn in *; tauto. }
      apply N.eqb_neq in A, B. rewrite A, B, (notin_existsb _ _ C), (visible_vb _ V).
      rewrite IH, <- app_assoc. reflexivity.
    - cbn [decoded]. change (43 =? 37) with false. change (43 =? 43) with true. cbn iota.
      rewrite IH, <- app_assoc. reflexivity.
  Qed.

  Lemma decoded_value t n : QValue t n -> forall l r,
    decoded a1 a2 a3 d err (bs "&;") k l (t ++ r) =
    decoded a1 a2 a3 d err (bs "&;") k (l ++ map (FByte d) n) r.
  Proof.
    induction 1 as [|b t n V I Q IH|t n Q IH|x y vx vy t n X Y Q IH]; intros l r; cbn [map app].
    - now rewrite app_nil_r.
    - cbn [decoded].
      assert (b <> 37 /\ b <> 43 /\ ~ In b (bs "&;")) as (A & B & C).
      { repeat split; [intros -> ..|intros X]; apply I; cbn in *; tauto. }
      apply N.eqb_neq in A, B. rewrite A, B, (notin_existsb _ _ C), (visible_vb _ V).
      rewrite IH, <- app_assoc. reflexivity.
    - cbn [decoded]. change (43 =? 37) with false. change (43 =? 43) with true. cbn iota.
      rewrite IH, <- app_assoc. reflexivity.
    - cbn [decoded]. change (37 =? 37) with true. cbn iota.
      destruct (Hex_val _ _ X) as [-> Ex], (Hex_val _ _ Y) as [-> Ey].
      rewrite IH, <- app_assoc, Ex, Ey. reflexivity.
  Qed.

  Lemma decoded_stop stop b l r : In b stop -> b <> 37 -> b <> 43 ->
    decoded a1 a2 a3 d err stop k l (b :: r) = k b l r.
  Proof.
    intros I A B. cbn [decoded]. apply N.eqb_neq in A, B. rewrite A, B.
    replace (existsb (N.eqb b) stop) with true; [reflexivity|]. symmetry. apply existsb_exists.
    exists b. split; [exact I|apply N.eqb_refl].
  Qed.

  Lemma decoded_bad stop b l r : ~ visible b -> ~ In b stop ->
    decoded a1 a2 a3 d err stop k l (b :: r) = (l, Wrong (err b)).
  Proof.
    intros V I. cbn [decoded].
    assert (b <> 37 /\ b <> 43) as [A B] by (unfold visible in V; split; intros ->; apply V; lia).
    apply N.eqb_neq in A, B. now rewrite A, B, (notin_existsb _ _ I), (visible_nb _ V).
  Qed.

  Lemma decoded_escape stop r x rest l : EscapeProblem r x rest ->
    (forall y, r = 37 :: y -> (2 <= List.length y)%nat) ->
    decoded a1 a2 a3 d err stop k l r = (l, Wrong (err x)).
  Proof.
    intros [|x0|x0 y t Hx|x0 y t v Hx Hy] L.
    - specialize (L _ eq_refl). cbn in L. lia.
    - specialize (L _ eq_refl). cbn in L. lia.
    - cbn [decoded]. change (37 =? 37) with true. cbn iota. now rewrite (Hex_not _ Hx).
    - cbn [decoded]. change (37 =? 37) with true. cbn iota. destruct (Hex_val _ _ Hx) as [-> _].
      now rewrite (Hex_not _ Hy).
  Qed.
End Decoded.

(* ------------------------------------------------------------- pairs *)

Definition one_pair (again : reader) : reader := fun l s =>
  match s with
  | [] => (l, Partial StFirstUrlEncodedName)
  | _ =>
      say [FEv EUrlBegin]
        (decoded StUrlEncodedName StUrlEncodedNameHex1 StUrlEncodedNameHex2
           KUrlName ErUrlEncodedName (bs "=&;") (fun b =>
           if b =? 61
           then decoded StUrlEncodedValue StUrlEncodedValueHex1 StUrlEncodedValueHex2
                  KUrlValue ErUrlEncodedValue (bs "&;") (fun _ => again)
           else again)) l s
  end.

Lemma one_pair_some again l s : s <> [] ->
  one_pair again l s =
  decoded StUrlEncodedName StUrlEncodedNameHex1 StUrlEncodedNameHex2
           KUrlName ErUrlEncodedName (bs "=&;") (fun b =>
           if b =? 61
           then decoded StUrlEncodedValue StUrlEncodedValueHex1 StUrlEncodedValueHex2
                  KUrlValue ErUrlEncodedValue (bs "&;") (fun _ => again)
           else again) (l ++ [FEv EUrlBegin]) s.
Proof. destruct s; [congruence|reflexivity]. Qed.

Lemma qname_no_sep t n : QName t n -> ~ In 37 t /\ ~ In 61 t /\ ~ In 38 t /\ ~ In 59 t.
Proof.
  induction 1 as [|b t n V I Q IH|t n Q IH]; cbn [In]; [tauto| |].
  - repeat split; (intros [->|X]; [apply I; cbn; tauto|tauto]).
  - repeat split; (intros [X|X]; [discriminate|tauto]).
Qed.

Lemma spare_rest t s r : s = 38 \/ s = 59 -> escapes_in_values (t ++ s :: r) -> escapes_in_values r.
Proof.
  intros S E x y ->. destruct (E (t ++ s :: x) y) as (L & a & v & Ex & N1 & N2).
  { rewrite <- app_assoc. reflexivity. }
  split; [exact L|]. clear E L. revert a Ex. induction t as [|c t IH]; intros a Ex; cbn [app] in Ex.
  - destruct a as [|c a]; cbn [app] in Ex.
    + injection Ex as -> _. destruct S; discriminate.
    + injection Ex as _ ->. exists a, v. auto.
  - destruct a as [|c' a]; cbn [app] in Ex.
    + injection Ex as _ <-. exfalso. destruct S as [-> | ->]; [apply N1|apply N2]; apply in_or_app; right; now left.
    + injection Ex as _ Ex. exact (IH a Ex).
Qed.

Lemma query_step_nil r e rest : QueryStep false [] r e rest -> r = NNone /\ e = [].
Proof.
  intros Q. remember [] as z eqn:Z. destruct Q; subst; auto; try congruence;
    try (exfalso; destruct t; discriminate).
  exfalso. destruct H0; destruct t; discriminate.
Qed.

(* what a reading of pairs comes to, given the steps of the iterator *)
Definition reads_as (l : list fevent) (items : list item) (e : list iter_error) (x : list fevent * reading) : Prop :=
  match e with
  | [] => exists a, x = (l ++ flat_map seen_pair items, Partial a)
  | EName b :: _ => exists n, x = (l ++ flat_map seen_pair items ++ seen_pair (n, None), Wrong (ErUrlEncodedName b))
  | EValue b :: _ => exists n v,
      x = (l ++ flat_map seen_pair items ++ seen_pair (n, Some v), Wrong (ErUrlEncodedValue b))
  end.

Lemma reads_more l i items e x :
  reads_as (l ++ seen_pair i) items e x -> reads_as l (i :: items) e x.
Proof.
  unfold reads_as. cbn [flat_map].
  destruct e as [|[b|b] e]; [intros (a & ->); exists a|intros (n & ->); exists n|intros (n & v & ->); exists n, v];
    now rewrite <- !app_assoc.
Qed.

Lemma runs_pairs first t items e r : Runs QueryStep first t items e r ->
  (first = true -> query_start t) -> escapes_in_values t ->
  forall j l, (List.length t < j)%nat -> reads_as l items e (rounds j one_pair l t).
Proof.
  induction 1 as [first t r e rest Q F|first t n v e rest items e' r Q Rn IH]; intros St Sp j l L;
    (destruct j as [|j]; [lia|]); cbn [rounds].
  - unfold reads_as. cbn [flat_map].
    assert (NE : forall a (b : byte) c, a ++ b :: c <> []) by (intros [|] ? ?; discriminate).
    inversion Q; subst; try (destruct F; discriminate).
    + eexists. now rewrite app_nil_r.
    + destruct St as [A B]; [reflexivity || assumption|]. tauto.
    + rewrite one_pair_some by apply NE.
      rewrite (decoded_name _ _ _ _ _ _ _ _ H), decoded_bad; [|assumption|].
      * exists n. unfold seen_pair. cbn [fst snd]. now rewrite <- !app_assoc, !app_nil_r.
      * unfold visible in *. cbn. intros [X|[X|[X|[]]]]; subst b; match goal with V : ~ _ |- _ => apply V; lia end.
    + rewrite one_pair_some by apply NE.
      rewrite (decoded_name _ _ _ _ _ _ _ _ H), decoded_stop by (cbn; auto; discriminate).
      change (61 =? 61) with true. cbn iota.
      rewrite (decoded_value _ _ _ _ _ _ _ _ H0), decoded_bad; [|assumption|].
      * exists n, v. unfold seen_pair. cbn [fst snd]. now rewrite <- !app_assoc.
      * unfold visible in *. cbn. intros [X|[X|[]]]; subst b; match goal with V : ~ _ |- _ => apply V; lia end.
    + exfalso. assert (exists z, r0 = 37 :: z) as (z & ->) by (inversion H0; eauto).
      destruct (Sp _ _ eq_refl) as (_ & a & v & -> & _).
      apply qname_no_sep in H. destruct H as (_ & H & _). apply H, in_or_app. right. now left.
    + rewrite one_pair_some by apply NE.
      rewrite (decoded_name _ _ _ _ _ _ _ _ H), decoded_stop by (cbn; auto; discriminate).
      change (61 =? 61) with true. cbn iota.
      rewrite (decoded_value _ _ _ _ _ _ _ _ H0).
      rewrite (decoded_escape _ _ _ _ _ _ _ _ _ _ _ H1).
      * exists n, v. unfold seen_pair. cbn [fst snd]. now rewrite <- !app_assoc.
      * intros y ->. apply (Sp (t0 ++ 61 :: u) y). rewrite <- !app_assoc. reflexivity.
    + exfalso. destruct (Sp _ _ eq_refl) as (_ & a & v & -> & _).
      apply qname_no_sep in H. destruct H as (_ & H & _). apply H, in_or_app. right. now left.
  - destruct (query_progress _ _ _ _ _ _ Q) as [P ->]. cbn [app].
    inversion Q; subst;
      match goal with X : QName _ _ |- _ => rename X into HN end;
      try match goal with X : QValue _ _ |- _ => rename X into HV end;
      try match goal with X : separator _ |- _ => rename X into HS end.
    + (* a name at the end *)
      rewrite one_pair_some by assumption. rewrite <- (app_nil_r t) at 1.
      rewrite (decoded_name _ _ _ _ _ _ _ _ HN).
      inversion Rn; subst; [|match goal with X : QueryStep _ [] (NItem _ _) _ _ |- _ =>
        apply query_progress in X; cbn in X; lia end].
      match goal with X : QueryStep false [] _ _ _ |- _ => apply query_step_nil in X; destruct X as [-> ->] end.
      eexists. unfold seen_pair. cbn [decoded flat_map fst snd]. now rewrite ?app_nil_r, <- !app_assoc.
    + (* a name before a separator *)
      rewrite one_pair_some by (destruct t0; discriminate).
      rewrite (decoded_name _ _ _ _ _ _ _ _ HN).
      rewrite decoded_stop by (unfold separator in *; destruct HS; subst s; cbn; auto; discriminate).
      replace (s =? 61) with false by (symmetry; apply N.eqb_neq; unfold separator in *; destruct HS; subst; discriminate).
      apply reads_more.
      replace ((l ++ [FEv EUrlBegin]) ++ map (FByte KUrlName) n) with (l ++ seen_pair (n, None))
        by (unfold seen_pair; cbn [fst snd]; now rewrite app_nil_r, <- app_assoc).
      apply IH; [discriminate|eapply spare_rest; eassumption|lia].
    + rewrite one_pair_some by (destruct t0; discriminate).
      rewrite (decoded_name _ _ _ _ _ _ _ _ HN), decoded_stop by (cbn; auto; discriminate).
      change (61 =? 61) with true. cbn iota. rewrite <- (app_nil_r u) at 1.
      rewrite (decoded_value _ _ _ _ _ _ _ _ HV).
      inversion Rn; subst; [|match goal with X : QueryStep _ [] (NItem _ _) _ _ |- _ =>
        apply query_progress in X; cbn in X; lia end].
      match goal with X : QueryStep false [] _ _ _ |- _ => apply query_step_nil in X; destruct X as [-> ->] end.
      eexists. unfold seen_pair. cbn [decoded flat_map fst snd]. now rewrite ?app_nil_r, <- !app_assoc.
    + rewrite one_pair_some by (destruct t0; discriminate).
      rewrite (decoded_name _ _ _ _ _ _ _ _ HN), decoded_stop by (cbn; auto; discriminate).
      change (61 =? 61) with true. cbn iota.
      rewrite (decoded_value _ _ _ _ _ _ _ _ HV).
      rewrite decoded_stop by (unfold separator in *; destruct HS; subst s; cbn; auto; discriminate).
      apply reads_more.
      replace (((l ++ [FEv EUrlBegin]) ++ map (FByte KUrlName) n) ++ map (FByte KUrlValue) v0)
        with (l ++ seen_pair (n, Some v0)) by (unfold seen_pair; cbn [fst snd]; now rewrite <- !app_assoc).
      apply IH; [discriminate| |lia].
      apply (spare_rest (t0 ++ 61 :: u) s); [exact HS|]. rewrite <- app_assoc. exact Sp.
Qed.

(* ------------------------------------------------------------- a body and a query *)

Lemma runs_shape first t items e r : Runs QueryStep first t items e r ->
  r = NNone /\ (e = [] \/ exists x, e = [x]).
Proof.
  induction 1 as [first t r e rest Q F|first t n v e rest items e' r Q Rn IH].
  - inversion Q; subst; try (destruct F; discriminate); split; eauto.
  - apply query_progress in Q. destruct Q as [_ ->]. exact IH.
Qed.

Lemma body_is_query h q t tail segs :
  query_start t -> escapes_in_values t -> segs <> [] -> List.concat segs = t ++ tail ->
  let '(p', log, rest, o) := feed h (set_length (init_url_encoded q) (N.of_nat (List.length t))) segs in
  match query_all t with
  | (items, [], NNone) => o = OFinished /\ rest = tail /\ flat log = seen_pairs items
  | (items, [EName b], NNone) => o = OError (ErUrlEncodedName b) /\
      exists n, nearly (flat log) (flat_map seen_pair items ++ seen_pair (n, None))
  | (items, [EValue b], NNone) => o = OError (ErUrlEncodedValue b) /\
      exists n v, nearly (flat log) (flat_map seen_pair items ++ seen_pair (n, Some v))
  | _ => False
  end.
Proof.
  intros St Sp NE E.
  pose proof (url_understood h q (N.of_nat (List.length t)) segs NE) as U.
  destruct (feed h (set_length (init_url_encoded q) (N.of_nat (List.length t))) segs) as [[[p' log] rest] o].
  destruct (query_all t) as [[items e] r] eqn:Qa. apply query_all_runs in Qa.
  pose proof (runs_pairs _ _ _ _ _ Qa (fun _ => St) Sp (S (List.length t)) [] (Nat.lt_succ_diag_r _)) as R.
  destruct (runs_shape _ _ _ _ _ Qa) as [-> Sh].
  unfold read_url_encoded in U. rewrite E, Nnat.Nat2N.id in U.
  rewrite firstn_app, Nat.sub_diag, firstn_all, firstn_O, app_nil_r in U.
  rewrite skipn_app, Nat.sub_diag, skipn_all in U. cbn [skipn app] in U.
  change (pairs [] t) with (rounds (S (List.length t)) one_pair [] t) in U.
  replace (N.of_nat (List.length t) <=? N.of_nat (List.length (t ++ tail))) with true in U
    by (symmetry; apply N.leb_le; rewrite app_length; lia).
  unfold understood in U.
  destruct Sh as [->|(x & ->)]; [|destruct x as [b|b]]; unfold reads_as in R.
  - destruct R as (a & R). rewrite R in U. cbn in U. now destruct U as (-> & -> & -> & _).
  - destruct R as (n & R). rewrite R in U. cbn [fst snd app] in U.
    destruct U as ((e' & -> & ->) & N & _). split; [reflexivity|]. now exists n.
  - destruct R as (n & v & R). rewrite R in U. cbn [fst snd app] in U.
    destruct U as ((e' & -> & ->) & N & _). split; [reflexivity|]. now exists n, v.
Qed.

(* ------------------------------------------------------------- a query and decode *)

Lemma encodes_qname t n : Encodes t n -> without (bs "%=&;") t -> QName t n.
Proof.
  induction 1 as [|b t d V N1 N2 En IH|t d En IH|h l vh vl t d Hh Hl En IH]; intros W.
  - constructor.
  - constructor; [assumption| |].
    + intros I. destruct I as [I|[I|I]]; [subst; now apply N2|subst; now apply N1|].
      apply (W b); [right; exact I|now left].
    + apply IH. intros x I J. apply (W x I). now right.
  - constructor. apply IH. intros x I J. apply (W x I). now right.
  - exfalso. apply (W 37); now left.
Qed.

Lemma encodes_qvalue t n : Encodes t n -> without (bs "&;") t -> QValue t n.
Proof.
  induction 1 as [|b t d V N1 N2 En IH|t d En IH|h l vh vl t d Hh Hl En IH]; intros W.
  - constructor.
  - constructor; [assumption| |].
    + intros I. destruct I as [I|[I|I]]; [subst; now apply N2|subst; now apply N1|].
      apply (W b); [exact I|now left].
    + apply IH. intros x I J. apply (W x I). now right.
  - constructor. apply IH. intros x I J. apply (W x I). now right.
  - constructor; auto. apply IH. intros x I J. apply (W x I). right; right; now right.
Qed.

Lemma without_left stop a b : without stop (a ++ b) -> without stop a.
Proof. intros W x I J. apply (W x I), in_or_app. now left. Qed.

Lemma decode_cases u : (exists v, decode u = DOk v) \/ (exists e, decode u = DErr e).
Proof. destruct (decode_defined u) as [X|X]; auto. Qed.

Lemma query_is_decode t n u :
  decode t = DOk n -> t <> [] -> without (bs "%=&;") t -> without (bs "&;") u ->
  query_all (t ++ 61 :: u) =
  match decode u with
  | DOk v => ([(n, Some v)], [], NNone)
  | DErr e => ([], [EValue (named e)], NNone)
  | _ => ([], [], NPanic)
  end.
Proof.
  intros D NE Wt Wu. apply decode_ok in D. pose proof (encodes_qname _ _ D Wt) as QN.
  destruct (decode_cases u) as [(v & V)|(e & V)]; rewrite V; apply query_all_runs.
  - apply decode_ok in V.
    change (@nil iter_error) with (@nil iter_error ++ []).
    eapply runs_item with (rest := []).
    + apply qs_value_end; auto. now apply encodes_qvalue.
    + eapply runs_stop; [apply qs_end|now left].
  - apply decode_err in V. destruct V as (p & d & r & -> & En & P).
    pose proof (encodes_qvalue _ _ En (without_left _ _ _ Wu)) as QV.
    destruct P as [b r V|r x rest P]; cbn [named].
    + eapply runs_stop; [eapply qs_value_byte; eauto|now left].
    + eapply runs_stop; [eapply qs_value_escape; eauto|now left].
Qed.

(* ------------------------------------------------------------- a body and decode *)

Section Decoded2.
  Context (a1 a2 a3 : pstate) (d : dkind) (err : byte -> perror) (stop : list byte) (k : byte -> reader).

  Lemma decoded_encodes t n : Encodes t n -> without stop t -> forall l r,
    decoded a1 a2 a3 d err stop k l (t ++ r) = decoded a1 a2 a3 d err stop k (l ++ map (FByte d) n) r.
  Proof.
    induction 1 as [|b t x V N1 N2 En IH|t x En IH|h w vh vl t x Hh Hl En IH]; intros W l r; cbn [map app].
    - now rewrite app_nil_r.
    - cbn [decoded]. apply N.eqb_neq in N1, N2.
      assert (~ In b stop) as C by (intros I; apply (W b I); now left).
      rewrite N1, N2, (notin_existsb _ _ C), (visible_vb _ V), IH, <- app_assoc; [reflexivity|].
      intros y I J. apply (W y I). now right.
    - cbn [decoded]. change (43 =? 37) with false. change (43 =? 43) with true. cbn iota.
      rewrite IH, <- app_assoc; [reflexivity|]. intros y I J. apply (W y I). now right.
    - cbn [decoded]. change (37 =? 37) with true. cbn iota.
      destruct (Hex_val _ _ Hh) as [-> Ex], (Hex_val _ _ Hl) as [-> Ey].
      rewrite IH, <- app_assoc, Ex, Ey; [reflexivity|]. intros y I J. apply (W y I). right; right; now right.
  Qed.

  Lemma decoded_problem r e l rest : DecodeProblem r e -> whole_escapes r -> without stop r ->
    decoded a1 a2 a3 d err stop k l (r ++ rest) = (l, Wrong (err (named e))).
  Proof.
    intros P L W. destruct P as [b r V|r x y P]; cbn [named app].
    - apply decoded_bad; [assumption|]. intros I. apply (W b I). now left.
    - destruct P as [|x0|x0 y t Hx|x0 y t v Hx Hy].
      + specialize (L [] _ eq_refl). cbn in L. lia.
      + specialize (L [] _ eq_refl). cbn in L. lia.
      + cbn [app decoded]. change (37 =? 37) with true. cbn iota. now rewrite (Hex_not _ Hx).
      + cbn [app decoded]. change (37 =? 37) with true. cbn iota. destruct (Hex_val _ _ Hx) as [-> _].
        now rewrite (Hex_not _ Hy).
  Qed.

  Lemma decoded_encodes_end t n l : Encodes t n -> without stop t ->
    decoded a1 a2 a3 d err stop k l t = (l ++ map (FByte d) n, Partial a1).
  Proof. intros En W. rewrite <- (app_nil_r t). now rewrite (decoded_encodes _ _ En W). Qed.

  Lemma decoded_problem_end r e l : DecodeProblem r e -> whole_escapes r -> without stop r ->
    decoded a1 a2 a3 d err stop k l r = (l, Wrong (err (named e))).
  Proof. intros P L W. rewrite <- (app_nil_r r). now apply decoded_problem. Qed.
End Decoded2.

Lemma whole_right a b : whole_escapes (a ++ b) -> whole_escapes b.
Proof. intros W x y ->. apply (W (a ++ x) y). now rewrite app_assoc. Qed.
Lemma without_right stop a b : without stop (a ++ b) -> without stop b.
Proof. intros W x I J. apply (W x I), in_or_app. now right. Qed.

Lemma body_is_decode h q t u tail segs :
  without (bs "=&;") t -> without (bs "&;") u -> whole_escapes t -> whole_escapes u ->
  segs <> [] -> List.concat segs = t ++ 61 :: u ++ tail ->
  let '(p', log, rest, o) :=
    feed h (set_length (init_url_encoded q) (N.of_nat (List.length (t ++ 61 :: u)))) segs in
  match decode t, decode u with
  | DOk n, DOk v => o = OFinished /\ rest = tail /\ flat log = seen_pairs [(n, Some v)]
  | DOk n, DErr e => o = OError (ErUrlEncodedValue (named e)) /\
      exists v, nearly (flat log) (seen_pair (n, Some v))
  | DErr e, _ => o = OError (ErUrlEncodedName (named e)) /\
      exists n, nearly (flat log) (seen_pair (n, None))
  | _, _ => False
  end.
Proof.
  intros Wt Wu Lt Lu NE E. set (b := t ++ 61 :: u).
  pose proof (url_understood h q (N.of_nat (List.length b)) segs NE) as U.
  destruct (feed h (set_length (init_url_encoded q) (N.of_nat (List.length b))) segs) as [[[p' log] rest] o].
  unfold read_url_encoded in U.
  replace (List.concat segs) with (b ++ tail) in U by (rewrite E; unfold b; now rewrite <- app_assoc).
  rewrite Nnat.Nat2N.id in U.
  rewrite firstn_app, Nat.sub_diag, firstn_all, firstn_O, app_nil_r in U.
  rewrite skipn_app, Nat.sub_diag, skipn_all in U. cbn [skipn app] in U.
  change (pairs [] b) with (one_pair (rounds (List.length b) one_pair) [] (t ++ 61 :: u)) in U.
  replace (N.of_nat (List.length b) <=? N.of_nat (List.length (b ++ tail))) with true in U
    by (symmetry; apply N.leb_le; rewrite app_length; lia).
  unfold understood in U. rewrite one_pair_some in U by (destruct t; discriminate).
  destruct (decode_cases t) as [(n & D)|(e & D)]; rewrite D.
  - apply decode_ok in D. rewrite (decoded_encodes _ _ _ _ _ _ _ _ _ D Wt) in U.
    rewrite decoded_stop in U by (cbn; auto; discriminate).
    change (61 =? 61) with true in U. cbn iota in U.
    destruct (decode_cases u) as [(v & V)|(e & V)]; rewrite V.
    + apply decode_ok in V.
      rewrite (decoded_encodes_end _ _ _ _ _ _ _ _ _ _ V Wu) in U. cbn in U.
      destruct U as (-> & -> & -> & _). repeat split. unfold seen_pairs, seen_pair. cbn.
      now rewrite <- !app_assoc.
    + apply decode_err in V. destruct V as (p & d & r & -> & En & P).
      rewrite (decoded_encodes _ _ _ _ _ _ _ _ _ En (without_left _ _ _ Wu)) in U.
      rewrite (decoded_problem_end _ _ _ _ _ _ _ _ _ _ P (whole_right _ _ Lu) (without_right _ _ _ Wu)) in U.
      cbn [fst snd] in U. destruct U as ((e' & -> & ->) & N & _). split; [reflexivity|].
      exists d. unfold seen_pair. cbn [fst snd]. cbn [app] in N. exact N.
  - apply decode_err in D. destruct D as (p & d & r & -> & En & P).
    rewrite <- app_assoc in U.
    rewrite (decoded_encodes _ _ _ _ _ _ _ _ _ En (without_left _ _ _ Wt)) in U.
    rewrite (decoded_problem _ _ _ _ _ _ _ _ _ _ _ P (whole_right _ _ Lt) (without_right _ _ _ Wt)) in U.
    cbn [fst snd] in U. destruct U as ((e' & -> & ->) & N & _). split; [reflexivity|].
    exists d. unfold seen_pair. cbn [fst snd app] in *. now rewrite app_nil_r.
Qed.
