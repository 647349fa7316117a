(* Iteration of QueryIterator and FieldIterator: from single next() calls to
   for loops, and the clean renderings. *)

From Coq Require Import NArith List Bool Arith Lia String.
From Verif Require Import Bytes ByteStream UtilModel UtilSpec UtilRef UtilFacts UtilFields.
Import ListNotations.
Local Open Scope N_scope.
Local Open Scope list_scope.

(* ---------------------------------------------------------- single calls *)

Lemma query_next_spec c r e rest : QueryStep (cindex c =? 0)%nat (crest c) r e rest ->
  exists c', query_next c = (r, e, c') /\ crest c' = rest /\
    (cindex c' + List.length rest = cindex c + List.length (crest c))%nat.
Proof.
  intros H. apply query_step in H. destruct (query_next_ref c) as [S K].
  destruct (query_next c) as [[r' e'] c']. unfold shape in S. rewrite H in S.
  injection S as -> -> <-. unfold keeps in K. cbn in K. eauto.
Qed.

Lemma query_next_step c : exists r e c', query_next c = (r, e, c') /\
  QueryStep (cindex c =? 0)%nat (crest c) r e (crest c').
Proof.
  destruct (query_total (cindex c =? 0)%nat (crest c)) as (r & e & rest & H).
  destruct (query_next_spec _ _ _ _ H) as (c' & E & <- & _). eauto.
Qed.

Lemma field_next_spec norm d c r e rest : FieldStep norm d (crest c) r e rest ->
  exists c', field_next d norm c = (r, e, c') /\ (r <> NPanic -> crest c' = rest).
Proof.
  intros H. apply field_step in H; auto. destruct H as (rest' & H & R).
  destruct (field_next_ref d norm c) as [S _].
  destruct (field_next d norm c) as [[r' e'] c']. unfold shape in S. rewrite H in S.
  injection S as -> -> <-. eauto.
Qed.

Lemma app_len {X} (a b : list X) : List.length (a ++ b) = (List.length a + List.length b)%nat.
Proof. apply app_length. Qed.

Lemma query_progress first t n v e rest : QueryStep first t (NItem n v) e rest ->
  (List.length rest < List.length t)%nat /\ e = [].
Proof.
  inversion 1; subst; split; auto; rewrite ?app_len; cbn [List.length]; rewrite ?app_len; cbn [List.length];
    try lia.
  destruct t; [congruence|cbn; lia].
Qed.

Lemma query_final first t r e rest : QueryStep first t r e rest ->
  r <> NPanic /\ r <> NFuel /\ (List.length rest <= List.length t)%nat.
Proof.
  assert (P : forall r x r', EscapeProblem r x r' -> (List.length r' <= List.length r)%nat).
  { intros ? ? ? []; cbn; lia. }
  inversion 1; subst; repeat split; try discriminate; rewrite ?app_len; cbn [List.length]; rewrite ?app_len;
    cbn [List.length]; try lia;
    match goal with E : EscapeProblem _ _ _ |- _ => apply P in E; lia end.
Qed.

Lemma fname_nonempty norm d t n : FName norm d t n false -> t <> [].
Proof. inversion 1; subst; intros E; now apply app_eq_nil in E as [_ ?]. Qed.

Lemma field_progress norm d t n v e rest : FieldStep norm d t (NItem n v) e rest ->
  (List.length rest < List.length t)%nat /\ e = [].
Proof.
  inversion 1; subst; split; auto; rewrite ?app_len; cbn [List.length]; rewrite ?app_len;
    cbn [List.length]; rewrite ?app_len; cbn [List.length]; rewrite ?app_len; cbn [List.length]; try lia.
  match goal with F : FName _ _ _ _ false |- _ => apply fname_nonempty in F end.
  destruct t; [congruence|cbn; lia].
Qed.

Definition suffix (r t : list byte) : Prop := exists p, t = p ++ r.
Lemma suffix_refl r : suffix r r.
Proof. now exists []. Qed.
Lemma suffix_cons r b t : suffix r t -> suffix r (b :: t).
Proof. intros [p ->]. now exists (b :: p). Qed.
Lemma suffix_app r a t : suffix r t -> suffix r (a ++ t).
Proof. intros [p ->]. exists (a ++ p). now rewrite app_assoc. Qed.
Lemma suffix_nil t : suffix [] t.
Proof. exists t. now rewrite app_nil_r. Qed.
Lemma suffix_forall (P : byte -> Prop) r t : suffix r t -> Forall P t -> Forall P r.
Proof. intros [p ->] F. now apply Forall_app in F. Qed.

Lemma field_suffix norm d t n v e rest : FieldStep norm d t (NItem n v) e rest -> suffix rest t.
Proof.
  inversion 1; subst; auto using suffix_nil;
    repeat (apply suffix_app || apply suffix_cons || apply suffix_refl).
Qed.

Lemma field_none norm d t e rest : FieldStep norm d t NNone e rest -> rest = [].
Proof. now inversion 1. Qed.

Lemma field_not_fuel norm d t r e rest : FieldStep norm d t r e rest -> r <> NFuel.
Proof. inversion 1; discriminate. Qed.

(* ------------------------------------------------------------- iteration *)

Lemma query_iterate fuel : forall c, (List.length (crest c) < fuel)%nat ->
  forall items e r, iterate query_next fuel c = (items, e, r) ->
  Runs QueryStep (cindex c =? 0)%nat (crest c) items e r.
Proof.
  induction fuel as [|fuel IH]; intros c L items e r H; [lia|]. cbn [iterate] in H.
  destruct (query_total (cindex c =? 0)%nat (crest c)) as (r0 & e0 & rest & Q).
  destruct (query_next_spec _ _ _ _ Q) as (c' & E & R & K). rewrite E in H.
  destruct (query_final _ _ _ _ _ Q) as (NP & NF & _).
  destruct r0 as [n v| | |]; try congruence.
  - destruct (query_progress _ _ _ _ _ _ Q) as [P _].
    destruct (iterate query_next fuel c') as [[items' e'] r'] eqn:Ei.
    injection H as <- <- <-. apply runs_item with rest; auto.
    specialize (IH c' ltac:(rewrite R; lia) _ _ _ Ei). rewrite R in IH.
    replace (cindex c' =? 0)%nat with false in IH; auto. symmetry. apply Nat.eqb_neq. lia.
  - injection H as <- <- <-. apply runs_stop with rest; auto.
Qed.

Lemma query_runs first t items e r : Runs QueryStep first t items e r ->
  forall fuel c, (List.length t < fuel)%nat -> crest c = t -> (cindex c =? 0)%nat = first ->
  iterate query_next fuel c = (items, e, r).
Proof.
  induction 1 as [first t r e rest Q F|first t n v e rest items e' r Q Rn IH]; intros fuel c L Ec Ei.
  - destruct fuel as [|fuel]; [lia|]. cbn [iterate]. subst t first.
    destruct (query_next_spec _ _ _ _ Q) as (c' & E & _). rewrite E.
    destruct F as [-> | ->]; reflexivity.
  - destruct fuel as [|fuel]; [lia|]. cbn [iterate]. subst t first.
    destruct (query_next_spec _ _ _ _ Q) as (c' & E & R & K). rewrite E.
    destruct (query_progress _ _ _ _ _ _ Q) as [P _].
    rewrite (IH fuel c' ltac:(lia) R). reflexivity. apply Nat.eqb_neq. lia.
Qed.

Lemma query_all_runs t items e r :
  query_all t = (items, e, r) <-> Runs QueryStep true t items e r.
Proof.
  unfold query_all. split; intros H.
  - exact (query_iterate _ (bs_new t) (Nat.lt_succ_diag_r _) _ _ _ H).
  - apply (query_runs _ _ _ _ _ H); auto.
Qed.

Definition fstep (norm : bool) (d : byte) (first : bool) := FieldStep norm d.

Lemma field_iterate norm d : forall fuel c, (List.length (crest c) < fuel)%nat ->
  octets (crest c) -> forall items e r first, iterate (field_next d norm) fuel c = (items, e, r) ->
  Runs (fstep norm d) first (crest c) items e r.
Proof.
  induction fuel as [|fuel IH]; intros c L O items e r first H; [lia|]. cbn [iterate] in H.
  destruct (field_total norm d (crest c) O) as (r0 & e0 & rest & Q).
  destruct (field_next_spec _ _ _ _ _ _ Q) as (c' & E & R). rewrite E in H.
  pose proof (field_not_fuel _ _ _ _ _ _ Q) as NF.
  destruct r0 as [n v| | |]; try congruence.
  - destruct (field_progress _ _ _ _ _ _ _ Q) as [P _]. specialize (R ltac:(discriminate)).
    destruct (iterate (field_next d norm) fuel c') as [[items' e'] r'] eqn:Ei.
    injection H as <- <- <-. apply runs_item with rest; auto.
    rewrite <- R. apply IH; auto; [rewrite R; lia|].
    rewrite R. exact (suffix_forall _ _ _ (field_suffix _ _ _ _ _ _ _ Q) O).
  - injection H as <- <- <-. apply runs_stop with rest; auto.
  - injection H as <- <- <-. apply runs_stop with rest; auto.
Qed.

Lemma field_runs norm d first t items e r : Runs (fstep norm d) first t items e r ->
  forall fuel c, (List.length t < fuel)%nat -> crest c = t ->
  iterate (field_next d norm) fuel c = (items, e, r).
Proof.
  induction 1 as [first t r e rest Q F|first t n v e rest items e' r Q Rn IH]; intros fuel c L Ec.
  - destruct fuel as [|fuel]; [lia|]. cbn [iterate]. subst t.
    destruct (field_next_spec _ _ _ _ _ _ Q) as (c' & E & _). rewrite E.
    destruct F as [-> | ->]; reflexivity.
  - destruct fuel as [|fuel]; [lia|]. cbn [iterate]. subst t.
    destruct (field_next_spec _ _ _ _ _ _ Q) as (c' & E & R). rewrite E.
    destruct (field_progress _ _ _ _ _ _ _ Q) as [P _].
    rewrite (IH fuel c' ltac:(lia) (R ltac:(discriminate))). reflexivity.
Qed.

Lemma field_all_runs norm d t items e r : octets t ->
  (field_all t d norm = (items, e, r) <-> Runs (fstep norm d) true t items e r).
Proof.
  intros O. unfold field_all. split; intros H.
  - apply (field_iterate norm d _ (bs_new t) (Nat.lt_succ_diag_r _) O). exact H.
  - apply (field_runs _ _ _ _ _ _ _ H); auto.
Qed.

(* ------------------------------------------------------------ C49 *)

Lemma query_call c : exists r e c', query_next c = (r, e, c') /\ r <> NPanic /\ r <> NFuel /\
  (List.length (crest c') <= List.length (crest c))%nat /\
  (forall n v, r = NItem n v -> (List.length (crest c') < List.length (crest c))%nat /\ e = []).
Proof.
  destruct (query_next_step c) as (r & e & c' & E & Q).
  destruct (query_final _ _ _ _ _ Q) as (A & B & C).
  exists r, e, c'. repeat split; auto.
  - subst r. apply (query_progress _ _ _ _ _ _ Q).
  - subst r. apply (query_progress _ _ _ _ _ _ Q).
Qed.

Lemma query_end c : crest c = [] -> query_next c = (NNone, [], c).
Proof. intros H. unfold query_next, bs_available. now rewrite H. Qed.

Lemma field_end norm d c : crest c = [] -> field_next d norm c = (NNone, [], c).
Proof. intros H. unfold field_next, bs_available. now rewrite H. Qed.

(* without any condition on the delimiter or on the input *)
Definition fpost (norm : bool) (r : list byte) (o : pres) : Prop :=
  let '(res, e, rest) := o in
  res <> NFuel /\ (res = NNone -> rest = []) /\
  (forall n v, res = NItem n v -> e = [] /\ (List.length rest <= List.length r)%nat).

Lemma fclose_post norm d r n v : fpost norm r (fclose d r n v).
Proof.
  induction r as [|b t IH]; cbn [fclose].
  - repeat split; try discriminate; auto.
  - destruct (isws b).
    + unfold fpost in *. destruct (fclose d t n v) as [[res e] rest].
      destruct IH as (A & B & C). repeat split; auto; eapply C in H; cbn; intuition lia.
    + destruct t as [|x t]; [repeat split; try discriminate; auto; cbn; lia|].
      destruct (x =? d); repeat split; try discriminate; auto; cbn; lia.
Qed.

Lemma fqref_post norm d k : forall r cb n v, (List.length r < k)%nat -> fpost norm r (fqref d cb r n v).
Proof.
  induction k as [|k IH]; intros r cb n v L; [lia|]. destruct r as [|b t]; cbn [fqref].
  - repeat split; try discriminate; auto.
  - cbn [List.length] in L. destruct (is_quoted_header_field b) as [[]|].
    + specialize (IH t b n (v ++ [b]) ltac:(lia)). unfold fpost in *.
      destruct (fqref d b t n (v ++ [b])) as [[res e] rest].
      destruct IH as (A & B & C). repeat split; auto; eapply C in H; cbn; intuition lia.
    + destruct (b =? 34).
      { pose proof (fclose_post norm d t n v) as P. unfold fpost in *.
        destruct (fclose d t n v) as [[res e] rest].
        destruct P as (A & B & C). repeat split; auto; eapply C in H; cbn; intuition lia. }
      destruct (b =? 92); [|repeat split; try discriminate; auto].
      destruct t as [|x t]; [repeat split; try discriminate; auto|]. cbn [List.length] in L.
      specialize (IH t x n (v ++ [x]) ltac:(lia)). unfold fpost in *.
      destruct (fqref d x t n (v ++ [x])) as [[res e] rest].
      destruct IH as (A & B & C). repeat split; auto; eapply C in H; cbn; intuition lia.
    + repeat split; try discriminate; auto.
Qed.

Lemma furef_post norm d r : forall n v, fpost norm r (furef d r n v).
Proof.
  induction r as [|b t IH]; intros n v; cbn [furef].
  - repeat split; try discriminate; auto.
  - destruct (is_header_field b) as [ok|]; [|repeat split; try discriminate; auto].
    destruct (negb ok || (b =? d)).
    + destruct (b =? d); repeat split; try discriminate; auto; cbn; lia.
    + specialize (IH n (v ++ [b])). unfold fpost in *. destruct (furef d t n (v ++ [b])) as [[res e] rest].
      destruct IH as (A & B & C). repeat split; auto; eapply C in H; cbn; intuition lia.
Qed.

Lemma fvref_post norm d r : forall n, fpost norm r (fvref d r n).
Proof.
  induction r as [|b t IH]; intros n; cbn [fvref].
  - repeat split; try discriminate; auto.
  - destruct (isws b).
    + specialize (IH n). unfold fpost in *. destruct (fvref d t n) as [[res e] rest].
      destruct IH as (A & B & C). repeat split; auto; eapply C in H; cbn; intuition lia.
    + destruct (b =? 34).
      * pose proof (fqref_post norm d _ t b n [] (Nat.lt_succ_diag_r _)) as P. unfold fpost in *.
        destruct (fqref d b t n []) as [[res e] rest].
        destruct P as (A & B & C). repeat split; auto; eapply C in H; cbn; intuition lia.
      * apply furef_post.
Qed.

Lemma fnref_post norm d r : forall s acc, fpost norm r (fnref d norm s r acc) /\
  (forall n v e rest, r <> [] -> fnref d norm s r acc = (NItem n v, e, rest) ->
    (List.length rest < List.length r)%nat).
Proof.
  assert (X : forall (t : list byte) b o, fpost norm t o -> fpost norm (b :: t) o /\
    (forall n v e rest, b :: t <> [] -> o = (NItem n v, e, rest) ->
    (List.length rest < List.length (b :: t))%nat)).
  { intros t b o P. unfold fpost in *. destruct o as [[res e] rest]. destruct P as (A & B & C). split.
    - repeat split; auto; eapply C in H; cbn; intuition lia.
    - intros n v e' rest' _ E. injection E as -> _ <-. destruct (C n v eq_refl). cbn; lia. }
  assert (Y : forall (t : list byte) b r e, (forall n v, r <> NItem n v) -> r <> NFuel -> fpost norm (b :: t) (r, e, []) /\
    (forall n v e' (rest : list byte), b :: t <> [] -> (r, e, []) = (NItem n v, e', rest) ->
    (List.length rest < List.length (b :: t))%nat)).
  { intros t b r0 e H H'. split; [repeat split; auto; exfalso; eapply H; eassumption|].
    intros n v e' rest _ E. injection E as E _ _. now apply H in E. }
  induction r as [|b t IH]; intros s acc.
  - split; [|congruence]. destruct s; repeat split; try discriminate; auto.
  - cbn [fnref]. destruct (s && isws b); [apply X, IH|].
    destruct (is_token b) as [tk|].
    2:{ split; [repeat split; discriminate|]. intros. discriminate. }
    destruct (negb tk || _).
    + destruct (b =? 61); [apply X, fvref_post|].
      destruct (b =? 47); [apply X, IH|].
      destruct (b =? d).
      { apply X. repeat split; try discriminate; auto. }
      destruct (is_upper b); [apply X, IH|]. apply Y; discriminate.
    + apply X, IH.
Qed.

Lemma field_call norm d c : exists r e c', field_next d norm c = (r, e, c') /\ r <> NFuel /\
  (r = NNone -> crest c' = []) /\
  (forall n v, r = NItem n v -> (List.length (crest c') < List.length (crest c))%nat /\ e = []).
Proof.
  destruct (field_next_ref d norm c) as [S _].
  destruct (fnref_post norm d (crest c) true []) as [P Q].
  destruct (field_next d norm c) as [[r e] c']. unfold shape in S. rewrite <- S in P, Q.
  destruct P as (A & B & C). exists r, e, c'. repeat split; auto.
  - subst r. destruct (crest c) as [|b t] eqn:E.
    + cbn in S. discriminate.
    + eapply Q; [discriminate|reflexivity].
  - now destruct (C _ _ H).
Qed.

Lemma query_bounded t : exists items e, query_all t = (items, e, NNone) /\
  (List.length items <= List.length t)%nat /\ (List.length e <= 1)%nat.
Proof.
  destruct (query_all t) as [[items e] r] eqn:E. apply query_all_runs in E.
  assert (H : r = NNone /\ (List.length items <= List.length t)%nat /\ (List.length e <= 1)%nat).
  { clear - E. revert E. generalize true. intros b E.
    induction E as [first t r e rest Q F|first t n v e rest items e' r Q Rn IH].
    - destruct (query_final _ _ _ _ _ Q) as (A & _ & _). destruct F as [-> | ->]; [|congruence].
      cbn. repeat split; [lia|]. inversion Q; cbn; lia.
    - destruct (query_progress _ _ _ _ _ _ Q) as [P ->]. cbn. intuition lia. }
  destruct H as (-> & A & B). eauto.
Qed.

Lemma field_bounded norm d t : exists items e r, field_all t d norm = (items, e, r) /\
  (r = NNone \/ r = NPanic) /\ (List.length items <= List.length t)%nat.
Proof.
  unfold field_all.
  assert (H : forall fuel c, (List.length (crest c) < fuel)%nat ->
    exists items e r, iterate (field_next d norm) fuel c = (items, e, r) /\
      (r = NNone \/ r = NPanic) /\ (List.length items <= List.length (crest c))%nat).
  { induction fuel as [|fuel IH]; intros c L; [lia|]. cbn [iterate].
    destruct (field_call norm d c) as (r & e & c' & E & NF & NN & P). rewrite E.
    destruct r as [n v| | |]; try congruence.
    - destruct (P _ _ eq_refl) as [P' _]. destruct (IH c' ltac:(lia)) as (items & e' & r & -> & R & B).
      exists ((n, v) :: items), (e ++ e'), r. repeat split; auto. cbn; lia.
    - exists [], e, NNone. repeat split; auto. cbn; lia.
    - exists [], e, NPanic. repeat split; auto. cbn; lia. }
  exact (H _ (bs_new t) (Nat.lt_succ_diag_r _)).
Qed.

(* ------------------------------------------------------- clean queries *)

Lemma runs_query_nil first items e r : Runs QueryStep first [] items e r -> items = [] /\ e = [] /\ r = NNone.
Proof.
  inversion 1 as [f t r0 e0 rest Q F|f t n v e0 rest items' e' r0 Q Rn]; subst.
  - inversion Q; subst; auto;
    try match goal with E : _ ++ _ = [] |- _ => apply app_eq_nil in E; destruct E; subst end;
    try discriminate;
    try match goal with E : EscapeProblem [] _ _ |- _ => inversion E end;
    destruct F; discriminate.
  - exfalso. apply query_progress in Q. cbn in Q. lia.
Qed.

Lemma query_clean_runs t items : Query t items -> forall first, (first = true -> query_start t) ->
  Runs QueryStep first t items [] NNone.
Proof.
  assert (G : forall (t r : list byte) b, b = 61 \/ separator b -> query_start (t ++ b :: r) -> t <> []).
  { intros t' r b B S ->. cbn in S. tauto. }
  induction 1 as [|t i F NE|t i s r items F S Q IH]; intros first St.
  - apply runs_stop with []; [constructor|auto].
  - change (@nil iter_error) with (@nil iter_error ++ []). destruct F as [t n N|t n u v N V].
    + apply runs_item with []; [now apply qs_name_end|]. apply runs_stop with []; [constructor|auto].
    + apply runs_item with [].
      * apply qs_value_end; auto. intros E. apply (G _ u 61); auto.
      * apply runs_stop with []; [constructor|auto].
  - change (@nil iter_error) with (@nil iter_error ++ []). destruct F as [t n N|t n u v N V].
    + apply runs_item with r; [|apply IH; discriminate]. apply qs_name_sep; auto. intros E. apply (G _ r s); auto.
    + apply runs_item with r; [|apply IH; discriminate]. rewrite <- app_assoc. cbn [app].
      apply qs_value_sep; auto. intros E. apply (G _ (u ++ s :: r) 61); auto.
      specialize (St E). rewrite <- app_assoc in St. exact St.
Qed.

Lemma qname_start t n r : QName t n -> t <> [] -> query_start (t ++ r).
Proof.
  intros [|b t' n' V NI Q|t' n' Q] NE; [congruence| |].
  - cbn. cbn in NI. split; [|unfold separator]; intuition congruence.
  - cbn. split; [discriminate|]. unfold separator. intros [?|?]; discriminate.
Qed.

Lemma query_runs_clean first t items e r : Runs QueryStep first t items e r -> e = [] ->
  Query t items /\ (first = true -> query_start t).
Proof.
  induction 1 as [first t r e rest Q F|first t n v e rest items e' r Q Rn IH]; intros E.
  - subst e. destruct F as [-> | ->]; inversion Q; subst; split; [constructor|auto].
    intros _. exact I.
  - apply app_eq_nil in E. destruct E as [-> ->]. destruct (IH eq_refl) as [C _].
    inversion Q; subst.
    + apply runs_query_nil in Rn. destruct Rn as [-> _]. split.
      * apply q_last; auto. now constructor.
      * intros _. rewrite <- (app_nil_r t). eapply qname_start; eauto.
    + split; [apply q_cons; auto; now constructor|]. intros ->. eapply qname_start; eauto.
    + apply runs_query_nil in Rn. destruct Rn as [-> _]. split.
      * apply q_last; [now constructor|]. intros E'. now apply app_eq_nil in E' as [_ ?].
      * intros ->. eapply qname_start; eauto.
    + split.
      * rewrite app_comm_cons, app_assoc. apply q_cons; auto. now constructor.
      * intros ->. eapply qname_start; eauto.
Qed.

Lemma query_clean t items :
  query_all t = (items, [], NNone) <-> Query t items /\ query_start t.
Proof.
  rewrite query_all_runs. split.
  - intros H. destruct (query_runs_clean _ _ _ _ _ H eq_refl) as [A B]. auto.
  - intros [A B]. now apply query_clean_runs.
Qed.

Lemma query_name_escape t n h l vh vl r : QName t n -> HexDigit h vh -> HexDigit l vl ->
  query_all (t ++ 37 :: h :: l :: r) = ([], [EName l], NNone).
Proof.
  intros. apply query_all_runs. apply runs_stop with []; [|auto]. eapply qs_name_hex; eassumption.
Qed.

(* -------------------------------------------------------- clean fields *)

Lemma fname_ws norm d w : Forall ws w -> FName norm d w [] true.
Proof.
  intros H. rewrite <- (rev_involutive w) in *. apply Forall_rev in H. rewrite rev_involutive in H.
  induction (rev w) as [|b l IH]; [constructor|]. inversion H; subst. cbn [rev].
  apply fn_ws; auto.
Qed.

Definition opens (norm : bool) (n : list byte) : bool :=
  match rev n with [] => true | b :: _ => (b =? 47) || (norm && is_upper b) end.

Lemma lower_upper norm b : norm = true -> upper b -> lower norm b = b + 32.
Proof.
  intros -> [A B]. unfold lower. apply N.leb_le in A, B. now rewrite A, B.
Qed.

Lemma lower_other norm b : ~ (norm = true /\ upper b) -> lower norm b = b.
Proof.
  intros H. unfold lower. destruct norm; [|reflexivity]. cbn [andb].
  destruct ((65 <=? b) && (b <=? 90)) eqn:E; [|reflexivity]. exfalso. apply H. split; auto.
  unfold upper. nbool. lia.
Qed.

Lemma fname_plain norm d w : Forall ws w -> forall n, plain_name d n ->
  FName norm d (w ++ n) (map (lower norm) n) (opens norm n).
Proof.
  intros W n. induction n as [|b n IH] using rev_ind; intros P.
  - rewrite app_nil_r. now apply fname_ws.
  - apply Forall_app in P. destruct P as [P B]. inversion B as [|? ? [B1 Bd] _]; subst. clear B.
    specialize (IH P). rewrite app_assoc, map_app. cbn [map].
    unfold opens. rewrite rev_app_distr. cbn [rev app].
    destruct B1 as [T| ->].
    + destruct (token_not _ T) as (_ & _ & N47). apply N.eqb_neq in N47. rewrite N47. cbn [orb].
      destruct norm.
      * destruct (upper_dec b) as [U|U].
        -- rewrite lower_upper by auto. pose proof U as U'. apply upper_true in U'. rewrite U'. cbn [andb].
           eapply fn_upper; eauto.
        -- rewrite lower_other by tauto. pose proof U as U'. apply upper_false in U'. rewrite U'. cbn [andb].
           eapply fn_token; eauto. tauto.
      * rewrite lower_other by (intros [? _]; discriminate). cbn [andb].
        eapply fn_token; eauto. intros [? _]; discriminate.
    + rewrite lower_other by (intros [_ U]; unfold upper in U; lia).
      change (47 =? 47) with true. cbn [orb]. eapply fn_slash; eauto.
Qed.

Lemma complete_opens norm n : name_complete norm n -> opens norm n = false.
Proof.
  unfold name_complete, opens. intros (NE & N47 & NU).
  destruct (rev n) as [|b l] eqn:E.
  - apply (f_equal (@rev _)) in E. rewrite rev_involutive in E. contradiction.
  - apply (f_equal (@rev _)) in E. rewrite rev_involutive in E. cbn in E. subst n.
    rewrite last_last in N47, NU. apply N.eqb_neq in N47. rewrite N47. cbn [orb].
    destruct norm; [|reflexivity]. apply upper_false. tauto.
Qed.

Lemma fields_runs norm d t items : delimiter d -> Fields norm d t items -> forall first,
  Runs (fstep norm d) first t items [] NNone.
Proof.
  intros (D255 & Dws & D61 & D47 & D34).
  assert (N : forall first, Runs (fstep norm d) first [] [] [] NNone).
  { intros first. apply runs_stop with []; [|auto]. apply (fs_none norm d [] []). constructor. }
  induction 1 as [w W|t i L|t i r items F Q IH]; intros first.
  - apply runs_stop with []; [|auto]. apply (fs_none norm d w []). now apply fname_ws.
  - change (@nil iter_error) with (@nil iter_error ++ []).
    destruct L as [w n W P C|w n w' v W P W' V S NE|w n w' q v w'' W P W' Q W''].
    + apply runs_item with []; auto. apply fs_name_end. rewrite <- (complete_opens _ _ C). now apply fname_plain.
    + apply runs_item with []; auto. rewrite app_assoc. eapply fs_value_end; eauto. now apply fname_plain.
    + apply runs_item with []; auto. rewrite app_assoc. eapply fs_quoted_end; eauto. now apply fname_plain.
  - change (@nil iter_error) with (@nil iter_error ++ []).
    destruct F as [w n W P|w n w' v W P W' V S].
    + apply runs_item with r; auto. eapply fs_name_delim; [now apply fname_plain|]. repeat split; auto. tauto.
    + apply runs_item with r; auto. 
      replace ((w ++ n ++ 61 :: w' ++ v) ++ d :: r) with ((w ++ n) ++ 61 :: w' ++ v ++ d :: r)
        by (rewrite <- !app_assoc; cbn [app]; now rewrite <- !app_assoc).
      eapply fs_value_delim; eauto; [now apply fname_plain|]. split; auto.
Qed.

Lemma fields_all norm d t items : delimiter d -> Fields norm d t items ->
  field_all t d norm = (items, [], NNone).
Proof.
  intros D F. unfold field_all. apply (field_runs _ _ true _ _ _ _ (fields_runs _ _ _ _ D F true)); auto.
Qed.

Lemma quote_quoted v : FQuoted (quote v) v.
Proof. induction v; constructor; auto. Qed.

Lemma quoted_any norm d n v : plain_name d n ->
  field_all (n ++ 61 :: 34 :: quote v ++ [34]) d norm = ([(map (lower norm) n, Some v)], [], NNone).
Proof.
  intros P. unfold field_all. apply (field_runs _ _ true (n ++ 61 :: [] ++ 34 :: quote v ++ 34 :: [])); auto.
  change (@nil iter_error) with (@nil iter_error ++ []).
  apply runs_item with [].
  - eapply fs_quoted_end; [|constructor|apply quote_quoted|constructor].
    exact (fname_plain norm d [] (Forall_nil _) n P).
  - apply runs_stop with []; [|auto]. apply (fs_none norm d [] []). constructor.
Qed.

Lemma field_no_panic norm d t : Forall (fun b => b < 255) t ->
  exists items e, field_all t d norm = (items, e, NNone).
Proof.
  intros O. assert (O' : octets t) by (unfold octets; eapply Forall_impl; [|exact O]; cbn; intros; lia).
  destruct (field_all t d norm) as [[items e] r] eqn:E.
  pose proof E as E'. apply field_all_runs in E'; auto.
  assert (NP : r <> NPanic).
  { clear - E' O. induction E' as [first t r e rest Q F|first t n v e rest items e' r Q Rn IH].
    - intros ->. inversion Q; subst;
      repeat match goal with
      | H : Forall _ (_ ++ _) |- _ => apply Forall_app in H; destruct H
      | H : Forall (fun b => b < 255) (_ :: _) |- _ => inversion H; subst; clear H
      end; lia.
    - apply IH. exact (suffix_forall _ _ _ (field_suffix _ _ _ _ _ _ _ Q) O). }
  destruct (field_bounded norm d t) as (items' & e0 & r' & E1 & R & _). rewrite E in E1. injection E1 as <- <- <-.
  destruct R as [-> | ->]; [eauto|congruence].
Qed.

Lemma plain_utf8 t d : decode t = DOk d -> ~ In 37 t -> Utf8 d.
Proof.
  intros H N. apply decode_ok in H. apply ascii_utf8.
  induction H as [|b t d V N1 N2 E IH|t d E IH|h l vh vl t d Hh Hl E IH].
  - constructor.
  - constructor; [unfold visible in V; lia|]. apply IH. intros I. apply N. now right.
  - constructor; [lia|]. apply IH. intros I. apply N. now right.
  - exfalso. apply N. now left.
Qed.

Lemma every_string d : octets d -> exists t, decode t = DOk d.
Proof. intros O. exists (percent_encode (fun _ => true) d). now apply decode_percent. Qed.

(* membership of concrete bytes in the classes, for the examples *)
Ltac clean_bytes :=
  repeat (first [ apply Forall_cons | apply Forall_nil ]);
  unfold value_byte, token, ws, visible, separator; cbn; try lia; intuition (try discriminate; try lia).

Lemma qname_check l : forallb (fun b => (33 <=? b) && (b <=? 126) &&
    negb (existsb (N.eqb b) (bs "%+=&;"))) l = true -> QName l l.
Proof.
  induction l as [|b l IH]; intros H; [constructor|].
  cbn [forallb] in H. apply andb_true_iff in H. destruct H as [H1 H2].
  apply andb_true_iff in H1. destruct H1 as [H1 H3]. constructor; auto.
  - unfold visible. nbool. lia.
  - intros I. assert (existsb (N.eqb b) (bs "%+=&;") = true).
    { apply existsb_exists. exists b. split; auto. apply N.eqb_refl. }
    rewrite H in H3. discriminate.
Qed.

Lemma qvalue_check l : forallb (fun b => (33 <=? b) && (b <=? 126) &&
    negb (existsb (N.eqb b) (bs "%+&;"))) l = true -> QValue l l.
Proof.
  induction l as [|b l IH]; intros H; [constructor|].
  cbn [forallb] in H. apply andb_true_iff in H. destruct H as [H1 H2].
  apply andb_true_iff in H1. destruct H1 as [H1 H3]. constructor; auto.
  - unfold visible. nbool. lia.
  - intros I. assert (existsb (N.eqb b) (bs "%+&;") = true).
    { apply existsb_exists. exists b. split; auto. apply N.eqb_refl. }
    rewrite H in H3. discriminate.
Qed.

Lemma plain_check d l : forallb (fun b => valueb b && negb (b =? d)) l = true -> FPlain d l.
Proof.
  intros H. apply Forall_forall. intros b I. rewrite forallb_forall in H. specialize (H b I).
  apply andb_true_iff in H. destruct H as [H1 H2]. apply valueb_true in H1. nbool. auto.
Qed.

Lemma name_check d l : forallb (fun b => (tokenb b || (b =? 47)) && negb (b =? d)) l = true -> plain_name d l.
Proof.
  intros H. apply Forall_forall. intros b I. rewrite forallb_forall in H. specialize (H b I).
  apply andb_true_iff in H. destruct H as [H1 H2]. apply orb_true_iff in H1.
  rewrite tokenb_true, N.eqb_eq in H1. nbool. auto.
Qed.

Lemma ws_check l : forallb isws l = true -> Forall ws l.
Proof.
  intros H. apply Forall_forall. intros b I. rewrite forallb_forall in H. now apply isws_true, H.
Qed.

Lemma semicolon_delimiter : delimiter 59.
Proof. unfold delimiter, ws. lia. Qed.

Lemma comma_ends : ends_name 44 false.
Proof. unfold ends_name, ws. repeat split; (lia || (intros [H _]; discriminate H)). Qed.

Lemma comma_delimiter : delimiter 44.
Proof. unfold delimiter, ws. lia. Qed.
