(* Byte-by-byte reference functions for decode and the two iterators, and the
   proof that the model, which collects runs of bytes, computes them.  The
   fuel given by the model is always sufficient. *)

From Coq Require Import NArith List Bool Arith Lia.
From Verif Require Import Bytes ByteStream UtilModel.
Import ListNotations.
Local Open Scope N_scope.
Local Open Scope list_scope.

(* ----------------------------------------------------------- collecting *)

Definition pass (stop : byte -> option bool) (x : list byte) : Prop :=
  Forall (fun b => stop b = Some false) x.

Inductive collect_case (stop : byte -> option bool) (cb : byte) (mk : nat)
          (sl r : list byte) : collected -> Prop :=
| cc_eos : pass stop r ->
    collect_case stop cb mk sl r (CEos (Ctx (last r cb) mk (sl ++ r) []))
| cc_stop x b y : r = x ++ b :: y -> pass stop x -> stop b = Some true ->
    collect_case stop cb mk sl r (CStop (Ctx b mk (sl ++ x ++ [b]) y))
| cc_panic x b y : r = x ++ b :: y -> pass stop x -> stop b = None ->
    collect_case stop cb mk sl r (CPanic (Ctx b mk (sl ++ x ++ [b]) y)).

Lemma last_cons {X} (l : list X) a d : last (a :: l) d = last l a.
Proof.
  revert a d. induction l as [|b l IH]; intros; [reflexivity|].
  change (last (a :: b :: l) d) with (last (b :: l) d). now rewrite !IH.
Qed.

Lemma collect_loop_case stop r : forall cb mk sl,
  collect_case stop cb mk sl r (collect_loop stop cb mk sl r).
Proof.
  induction r as [|b r IH]; intros cb mk sl; simpl.
  - replace sl with (sl ++ []) at 2 by apply app_nil_r. apply (cc_eos stop cb mk sl []). constructor.
  - destruct (stop b) as [[]|] eqn:E.
    + apply (cc_stop _ _ _ _ _ [] b r); auto. constructor.
    + specialize (IH b mk (sl ++ [b])). inversion IH as [P H | x b' y Er P Hb H | x b' y Er P Hb H].
      * rewrite <- app_assoc. rewrite <- (last_cons r b cb). apply (cc_eos stop cb mk sl (b :: r)). now constructor.
      * rewrite <- app_assoc. apply (cc_stop _ _ _ _ _ (b :: x) b' y); auto.
        now rewrite Er. now constructor.
      * rewrite <- app_assoc. apply (cc_panic _ _ _ _ _ (b :: x) b' y); auto.
        now rewrite Er. now constructor.
    + apply (cc_panic _ _ _ _ _ [] b r); auto. constructor.
Qed.

Lemma collect_mark stop c :
  collect_case stop (cbyte c) (cindex c) [] (crest c) (bs_collect stop (bs_mark c)).
Proof. apply collect_loop_case. Qed.

Lemma collect_plain stop c :
  collect_case stop (cbyte c) (cmark c) (cslice c) (crest c) (bs_collect stop c).
Proof. apply collect_loop_case. Qed.

Lemma ignore_snoc cb mk x b y : bs_slice_ignore (Ctx cb mk (x ++ [b]) y) = x.
Proof. apply removelast_last. Qed.

Lemma length_snoc {X} (x : list X) b : length (x ++ [b]) = S (length x).
Proof. rewrite app_length. simpl. lia. Qed.

Lemma one_lt_snoc cb mk x b y (acc : list byte) :
  (if (1 <? bs_slice_length (Ctx cb mk (x ++ [b]) y))%nat then acc ++ x else acc) = acc ++ x.
Proof.
  unfold bs_slice_length. cbn [cslice]. rewrite length_snoc.
  destruct x; simpl; [now rewrite app_nil_r|reflexivity].
Qed.

Lemma zero_lt cb mk x y (acc : list byte) :
  (if (0 <? bs_slice_length (Ctx cb mk x y))%nat then acc ++ x else acc) = acc ++ x.
Proof.
  unfold bs_slice_length. cbn [cslice]. destruct x; simpl; [now rewrite app_nil_r|reflexivity].
Qed.

Lemma replay_app b mk sl x r :
  bs_replay (Ctx b mk (sl ++ x ++ [b]) r) = Ctx b mk (sl ++ x) (b :: r).
Proof.
  unfold bs_replay. cbn [cslice cbyte cmark crest]. rewrite app_assoc.
  destruct ((sl ++ x) ++ [b]) eqn:E; [now apply app_eq_nil in E|].
  now rewrite <- E, removelast_last, last_last.
Qed.

(* -------------------------------------------------------------- decode *)

Definition dapp (a : list byte) (r : decode_result) : decode_result :=
  match r with DOk s => DOk (a ++ s) | x => x end.

Fixpoint dref (r : list byte) : decode_result :=
  match r with
  | [] => DOk []
  | b :: t =>
      if b =? 43 then dapp [32] (dref t)
      else if b =? 37 then
        match t with
        | [] => DErr (DHexSequence 37)
        | x :: t1 =>
            match t1 with
            | [] => DErr (DHexSequence x)
            | y :: t2 =>
                match hex_digit x with
                | None => DErr (DHexSequence x)
                | Some hi =>
                    match hex_digit y with
                    | None => DErr (DHexSequence y)
                    | Some lo => dapp [N.shiftl hi 4 + lo] (dref t2)
                    end
                end
            end
        end
      else if is_visible_7bit b then dapp [b] (dref t)
      else DErr (DByte b)
  end.

Lemma dapp_app a b r : dapp a (dapp b r) = dapp (a ++ b) r.
Proof. destruct r; simpl; auto. now rewrite app_assoc. Qed.

Lemma dapp_nil r : dapp [] r = r.
Proof. now destruct r. Qed.

Definition dstop := fun b : byte => Some (negb (is_visible_7bit b) || ((b =? 43) || (b =? 37))).

Lemma dref_pass x r : pass dstop x -> dref (x ++ r) = dapp x (dref r).
Proof.
  induction 1 as [|b x H P IH]; [now rewrite dapp_nil|].
  cbn [app dref]. unfold dstop in H.
  destruct (is_visible_7bit b), (b =? 43), (b =? 37); try discriminate.
  rewrite IH, dapp_app. reflexivity.
Qed.

Lemma next_eq cb mk sl b r : bs_next (Ctx cb mk sl (b :: r)) = Some (Ctx b mk (sl ++ [b]) r).
Proof. reflexivity. Qed.

Lemma has2 cb mk sl r :
  bs_has_bytes (Ctx cb mk sl r) 2 = match r with _ :: _ :: _ => true | _ => false end.
Proof. destruct r as [|? [|? ?]]; reflexivity. Qed.

Lemma decode_loop_ref fuel : forall c acc, (length (crest c) < fuel)%nat ->
  decode_loop fuel c acc = dapp acc (dref (crest c)).
Proof.
  induction fuel as [|fuel IH]; intros c acc L; [lia|].
  cbn [decode_loop]. unfold collect_visible_7bit.
  pose proof (collect_mark dstop c) as H. unfold dstop in H at 2.
  inversion H as [P E | x b y Er P Hb E | x b y Er P Hb E].
  - cbn [bs_slice cslice app]. rewrite zero_lt. rewrite <- (app_nil_r (crest c)), dref_pass by auto.
    simpl. now rewrite !app_nil_r.
  - cbn [app]. rewrite ignore_snoc, one_lt_snoc. cbn [cbyte].
    rewrite Er in L |- *. rewrite dref_pass, dapp_app by auto. rewrite app_length in L. cbn [length] in L.
    cbn [dref]. destruct (b =? 43) eqn:E43.
    + rewrite IH by (cbn [crest]; lia). cbn [crest]. now rewrite dapp_app.
    + destruct (b =? 37) eqn:E37.
      * apply N.eqb_eq in E37. subst b. rewrite has2. destruct y as [|h [|l y]].
        -- reflexivity.
        -- reflexivity.
        -- unfold collect_hex8. rewrite next_eq. cbn [cbyte]. destruct (hex_digit h); [|reflexivity].
           rewrite next_eq. cbn [cbyte]. destruct (hex_digit l); [|reflexivity].
           rewrite IH by (cbn [crest length] in *; lia). cbn [crest]. now rewrite dapp_app.
      * unfold dstop in Hb. rewrite E43, E37 in Hb. destruct (is_visible_7bit b); [discriminate|reflexivity].
  - discriminate.
Qed.

Lemma decode_ref t : decode t = dref t.
Proof.
  unfold decode. rewrite decode_loop_ref by (cbn [bs_new crest]; lia). apply dapp_nil.
Qed.

(* --------------------------------------------------------------- query *)

(* what the outcome of a next() call means to its callers *)
Definition shape (o : outcome) : next_result * list iter_error * list byte :=
  let '(r, e, c) := o in (r, e, crest c).

(* the stream ends where it ended before *)
Definition keeps (c : ctx) (o : outcome) : Prop :=
  (cindex (snd o) + length (crest (snd o)) = cindex c + length (crest c))%nat.

Definition pres : Type := next_result * list iter_error * list byte.

Fixpoint qvref (r name acc : list byte) : pres :=
  match r with
  | [] => (NItem name (Some acc), [], [])
  | b :: t =>
      if b =? 43 then qvref t name (acc ++ [32])
      else if b =? 37 then
        match t with
        | [] => (NNone, [EValue 37], [])
        | x :: t1 =>
            match t1 with
            | [] => (NNone, [EValue x], [])
            | y :: t2 =>
                match hex_digit x with
                | None => (NNone, [EValue x], t1)
                | Some hi =>
                    match hex_digit y with
                    | None => (NNone, [EValue y], t2)
                    | Some lo => qvref t2 name (acc ++ [N.shiftl hi 4 + lo])
                    end
                end
            end
        end
      else if (b =? 38) || (b =? 59) then (NItem name (Some acc), [], t)
      else if is_visible_7bit b then qvref t name (acc ++ [b])
      else (NNone, [EValue b], [])
  end.

(* i: how many bytes of the stream precede r *)
Fixpoint qnref (i : nat) (r acc : list byte) : pres :=
  match r with
  | [] => (NItem acc None, [], [])
  | b :: t =>
      if b =? 43 then qnref (S i) t (acc ++ [32])
      else if b =? 37 then
        match t with
        | [] => (NNone, [EName 37], [])
        | x :: t1 =>
            match t1 with
            | [] => (NNone, [EName x], [])
            | y :: t2 =>
                match hex_digit x with
                | None => (NNone, [EName x], t1)
                | Some _ =>
                    match hex_digit y with
                    | None => (NNone, [EName y], t2)
                    | Some _ => (NNone, [EName y], [])
                    end
                end
            end
        end
      else if b =? 61 then
        if (i =? 0)%nat then (NNone, [EName b], []) else qvref t acc []
      else if (b =? 38) || (b =? 59) then
        if (i =? 0)%nat then (NNone, [EName b], []) else (NItem acc None, [], t)
      else if is_visible_7bit b then qnref (S i) t (acc ++ [b])
      else (NNone, [EName b], [])
  end.

Definition qvstop := fun b : byte =>
  Some (negb (is_visible_7bit b) || ((b =? 37) || (b =? 43) || (b =? 38) || (b =? 59))).
Definition qnstop := fun b : byte =>
  Some (negb (is_visible_7bit b) || ((b =? 37) || (b =? 43) || (b =? 61) || (b =? 38) || (b =? 59))).

Lemma qvref_pass x : pass qvstop x -> forall r name acc,
  qvref (x ++ r) name acc = qvref r name (acc ++ x).
Proof.
  induction 1 as [|b x H P IH]; intros r name acc; [now rewrite app_nil_r|].
  cbn [app qvref]. unfold qvstop in H.
  destruct (is_visible_7bit b), (b =? 43), (b =? 37), (b =? 38), (b =? 59); try discriminate.
  cbn [orb]. rewrite IH, <- app_assoc. reflexivity.
Qed.

Lemma qnref_pass x : pass qnstop x -> forall i r acc,
  qnref i (x ++ r) acc = qnref (i + length x) r (acc ++ x).
Proof.
  induction 1 as [|b x H P IH]; intros i r acc; [now rewrite app_nil_r, Nat.add_0_r|].
  cbn [app qnref]. unfold qnstop in H.
  destruct (is_visible_7bit b), (b =? 43), (b =? 37), (b =? 61), (b =? 38), (b =? 59); try discriminate.
  cbn [orb]. rewrite IH, <- app_assoc. cbn [length]. f_equal. lia.
Qed.

Lemma jump_end_eq cb mk sl r : jump_end (Ctx cb mk sl r) = Ctx cb mk (sl ++ r) [].
Proof.
  unfold jump_end, bs_jump, bs_available. cbn [cbyte cmark cslice crest].
  now rewrite firstn_all, skipn_all.
Qed.

Ltac keep := unfold keeps, cindex, submit_name_value, submit_name, submit_error; cbn [snd cmark cslice crest]; rewrite ?jump_end_eq;
  cbn [snd cmark cslice crest]; repeat (rewrite ?app_length; cbn [length]); try lia.

Lemma query_value_ref fuel : forall c name acc, (length (crest c) < fuel)%nat ->
  shape (query_value fuel c name acc) = qvref (crest c) name acc /\
  keeps c (query_value fuel c name acc).
Proof.
  induction fuel as [|fuel IH]; intros c name acc L; [lia|].
  cbn [query_value]. unfold collect_visible_7bit.
  pose proof (collect_mark qvstop c) as H. unfold qvstop in H at 2.
  inversion H as [P E | x b y Er P Hb E | x b y Er P Hb E].
  - cbn [bs_slice cslice app]. rewrite zero_lt.
    split; [|keep].
    rewrite <- (app_nil_r (crest c)), qvref_pass by auto. rewrite ?app_nil_r. reflexivity.
  - cbn [app]. rewrite ignore_snoc, one_lt_snoc. cbn [cbyte].
    rewrite Er, qvref_pass by auto. rewrite Er in L. rewrite app_length in L. cbn [length] in L.
    cbn [qvref]. destruct (b =? 37) eqn:E37.
    + apply N.eqb_eq in E37. subst b. cbn [N.eqb Pos.eqb]. rewrite has2. destruct y as [|h [|l y]].
      * unfold submit_error, next_if_any, bs_next. cbn [crest cbyte]. rewrite jump_end_eq.
        split; [reflexivity|]. unfold keeps, cindex. rewrite Er. keep.
      * unfold submit_error, next_if_any. rewrite next_eq. rewrite jump_end_eq.
        split; [reflexivity|]. unfold keeps, cindex. rewrite Er. keep.
      * unfold collect_hex8. rewrite next_eq. cbn [cbyte].
        destruct (hex_digit h);
          [|split; [reflexivity| unfold keeps, cindex; rewrite Er; keep]].
        rewrite next_eq. cbn [cbyte].
        destruct (hex_digit l);
          [|split; [reflexivity| unfold keeps, cindex; rewrite Er; keep]].
        edestruct IH as [S K]; [|rewrite S]; [cbn [crest length] in *; lia|].
        split; [reflexivity|]. unfold keeps in K |- *. rewrite K. unfold cindex. rewrite Er. keep.
    + destruct (b =? 43) eqn:E43.
      * edestruct IH as [S K]; [|rewrite S]; [cbn [crest length] in *; lia|].
        split; [reflexivity|]. unfold keeps in K |- *. rewrite K. unfold cindex. rewrite Er. keep.
      * destruct ((b =? 38) || (b =? 59)) eqn:Es.
        -- split; [reflexivity|]. unfold keeps, cindex. rewrite Er. keep.
        -- apply orb_false_iff in Es. destruct Es as [E38 E59]. unfold qvstop in Hb.
           rewrite E43, E37, E38, E59 in Hb. destruct (is_visible_7bit b); [discriminate|].
           unfold submit_error. rewrite jump_end_eq.
           split; [reflexivity|]. unfold keeps, cindex. rewrite Er. keep.
  - discriminate.
Qed.

Lemma query_name_ref fuel : forall c acc, (length (crest c) < fuel)%nat ->
  shape (query_name fuel c acc) = qnref (cindex c) (crest c) acc /\
  keeps c (query_name fuel c acc).
Proof.
  induction fuel as [|fuel IH]; intros c acc L; [lia|].
  cbn [query_name]. unfold collect_visible_7bit.
  pose proof (collect_mark qnstop c) as H. unfold qnstop in H at 2.
  inversion H as [P E | x b y Er P Hb E | x b y Er P Hb E].
  - cbn [bs_slice cslice app]. rewrite zero_lt.
    split; [|keep].
    rewrite <- (app_nil_r (crest c)), qnref_pass by auto. rewrite ?app_nil_r. reflexivity.
  - cbn [app]. rewrite ignore_snoc, one_lt_snoc. cbn [cbyte].
    rewrite Er, qnref_pass by auto. rewrite Er in L. rewrite app_length in L. cbn [length] in L.
    assert (Ei : (cindex (Ctx b (cindex c) (x ++ [b]) y) =? 1)%nat = (cindex c + length x =? 0)%nat).
    { unfold cindex at 1. cbn [cmark cslice]. rewrite length_snoc. rewrite Nat.add_succ_r. reflexivity. }
    rewrite !Ei.
    cbn [qnref]. destruct (b =? 37) eqn:E37.
    + apply N.eqb_eq in E37. subst b. cbn [N.eqb Pos.eqb]. rewrite has2. destruct y as [|h [|l y]].
      * unfold submit_error, next_if_any, bs_next. cbn [crest cbyte]. rewrite jump_end_eq.
        split; [reflexivity|]. unfold keeps, cindex. rewrite Er. keep.
      * unfold submit_error, next_if_any. rewrite next_eq. rewrite jump_end_eq.
        split; [reflexivity|]. unfold keeps, cindex. rewrite Er. keep.
      * unfold collect_hex8. rewrite next_eq. cbn [cbyte].
        destruct (hex_digit h);
          [|split; [reflexivity| unfold keeps, cindex; rewrite Er; keep]].
        rewrite next_eq. cbn [cbyte].
        destruct (hex_digit l).
        -- unfold submit_error. rewrite jump_end_eq.
           split; [reflexivity| unfold keeps, cindex; rewrite Er; keep].
        -- split; [reflexivity| unfold keeps, cindex; rewrite Er; keep].
    + destruct (b =? 43) eqn:E43.
      * edestruct IH as [S K]; [|rewrite S]; [cbn [crest length] in *; lia|].
        split.
        -- unfold cindex at 1. cbn [cmark cslice crest]. rewrite length_snoc. f_equal. lia.
        -- unfold keeps in K |- *. rewrite K. unfold cindex. rewrite Er. keep.
      * destruct (b =? 61) eqn:E61.
        -- destruct (cindex c + length x =? 0)%nat.
           ++ unfold submit_error. rewrite jump_end_eq.
              split; [reflexivity| unfold keeps, cindex; rewrite Er; keep].
           ++ edestruct (query_value_ref fuel (Ctx b (cindex c) (x ++ [b]) y)) as [S K];
                [|rewrite S]; [cbn [crest length] in *; lia|].
              split; [reflexivity|]. unfold keeps in K |- *. rewrite K. unfold cindex. rewrite Er. keep.
        -- destruct (cindex c + length x =? 0)%nat.
           ++ unfold submit_error. rewrite jump_end_eq. cbn [cbyte].
              split; [|unfold keeps, cindex; rewrite Er; keep].
              destruct ((b =? 38) || (b =? 59)) eqn:Es; [reflexivity|].
              apply orb_false_iff in Es. destruct Es as [E38 E59]. unfold qnstop in Hb.
              rewrite E43, E37, E38, E59, E61 in Hb. destruct (is_visible_7bit b); [discriminate|reflexivity].
           ++ destruct ((b =? 38) || (b =? 59)) eqn:Es.
              ** split; [reflexivity|]. unfold keeps, cindex. rewrite Er. keep.
              ** apply orb_false_iff in Es. destruct Es as [E38 E59]. unfold qnstop in Hb.
                 rewrite E43, E37, E38, E59, E61 in Hb. destruct (is_visible_7bit b); [discriminate|].
                 unfold submit_error. rewrite jump_end_eq.
                 split; [reflexivity|]. unfold keeps, cindex. rewrite Er. keep.
  - discriminate.
Qed.

Definition qref (i : nat) (r : list byte) : pres :=
  match r with [] => (NNone, [], []) | _ => qnref i r [] end.

Lemma query_next_ref c :
  shape (query_next c) = qref (cindex c) (crest c) /\ keeps c (query_next c).
Proof.
  unfold query_next, bs_available. destruct (crest c) as [|b r] eqn:E.
  - cbn [length Nat.eqb]. split; [now cbn; rewrite E|reflexivity].
  - cbn [length Nat.eqb].
    destruct (query_name_ref (S (S (length r))) c []) as [S K]; [rewrite E; cbn; lia|].
    rewrite E in S. split; [exact S|exact K].
Qed.

(* --------------------------------------------------------------- field *)

Definition isws (b : byte) : bool := (b =? 32) || (b =? 9).

(* after the closing quote *)
Fixpoint fclose (d : byte) (r name v : list byte) : pres :=
  match r with
  | [] => (NItem name (Some v), [], [])
  | b :: t =>
      if isws b then fclose d t name v
      else match t with
           | [] => (NItem name (Some v), [], [])
           | x :: t' => if x =? d then (NItem name (Some v), [], t') else (NNone, [EValue x], [])
           end
  end.

(* cb: the byte before r *)
Fixpoint fqref (d : byte) (cb : byte) (r name v : list byte) : pres :=
  match r with
  | [] => (NNone, [EValue cb], [])
  | b :: t =>
      match is_quoted_header_field b with
      | None => (NPanic, [], t)
      | Some true => fqref d b t name (v ++ [b])
      | Some false =>
          if b =? 34 then fclose d t name v
          else if b =? 92 then
            match t with
            | [] => (NNone, [EName b], [])
            | x :: t' => fqref d x t' name (v ++ [x])
            end
          else (NNone, [EValue b], [])
      end
  end.

Fixpoint furef (d : byte) (r name v : list byte) : pres :=
  match r with
  | [] => (NItem name (Some v), [], [])
  | b :: t =>
      match is_header_field b with
      | None => (NPanic, [], t)
      | Some ok =>
          if negb ok || (b =? d) then
            if b =? d then (NItem name (Some v), [], t) else (NNone, [EValue b], [])
          else furef d t name (v ++ [b])
      end
  end.

Fixpoint fvref (d : byte) (r name : list byte) : pres :=
  match r with
  | [] => (NItem name None, [], [])
  | b :: t =>
      if isws b then fvref d t name
      else if b =? 34 then fqref d b t name []
      else furef d (b :: t) name []
  end.

Fixpoint fnref (d : byte) (norm skip : bool) (r acc : list byte) : pres :=
  match r with
  | [] => ((if skip then NNone else NItem acc None), [], [])
  | b :: t =>
      if skip && isws b then fnref d norm true t acc
      else
        match is_token b with
        | None => (NPanic, [], t)
        | Some tk =>
            if negb tk || ((b =? 61) || (b =? d) || (b =? 47) || (norm && is_upper b)) then
              if b =? 61 then fvref d t acc
              else if b =? 47 then fnref d norm true t (acc ++ [47])
              else if b =? d then (NItem acc None, [], t)
              else if is_upper b then fnref d norm true t (acc ++ [b + 32])
              else (NNone, [EName b], [])
            else fnref d norm false t (acc ++ [b])
        end
  end.

Definition wsstop := fun b : byte => Some (negb ((b =? 32) || (b =? 9))).

Lemma ws_pass b : wsstop b = Some false -> isws b = true.
Proof. unfold wsstop, isws. now destruct ((b =? 32) || (b =? 9)). Qed.
Lemma ws_stop b : wsstop b = Some true -> isws b = false.
Proof. unfold wsstop, isws. now destruct ((b =? 32) || (b =? 9)). Qed.

Lemma fclose_pass d x : pass wsstop x -> forall r name v, fclose d (x ++ r) name v = fclose d r name v.
Proof. induction 1 as [|b x H P IH]; intros; [reflexivity|]. cbn [app fclose]. now rewrite (ws_pass _ H). Qed.

Lemma fvref_pass d x : pass wsstop x -> forall r name, fvref d (x ++ r) name = fvref d r name.
Proof. induction 1 as [|b x H P IH]; intros; [reflexivity|]. cbn [app fvref]. now rewrite (ws_pass _ H). Qed.

Lemma fnref_ws d norm x : pass wsstop x -> forall r acc,
  fnref d norm true (x ++ r) acc = fnref d norm true r acc.
Proof.
  induction 1 as [|b x H P IH]; intros; [reflexivity|].
  cbn [app fnref]. rewrite (ws_pass _ H). cbn [andb]. apply IH.
Qed.

Definition fqstop := stop_table is_quoted_header_field (fun _ => false).
Definition fustop d := stop_table is_header_field (fun b => b =? d).
Definition fnstop d (norm : bool) :=
  stop_table is_token (fun b => (b =? 61) || (b =? d) || (b =? 47) || (norm && is_upper b)).

Lemma fqref_pass d x : pass fqstop x -> forall cb r name v,
  fqref d cb (x ++ r) name v = fqref d (last x cb) r name (v ++ x).
Proof.
  induction 1 as [|b x H P IH]; intros; [now rewrite app_nil_r|].
  cbn [app fqref]. unfold fqstop, stop_table in H.
  destruct (is_quoted_header_field b) as [[]|]; try discriminate.
  rewrite IH, <- app_assoc, last_cons. reflexivity.
Qed.

Lemma furef_pass d x : pass (fustop d) x -> forall r name v,
  furef d (x ++ r) name v = furef d r name (v ++ x).
Proof.
  induction 1 as [|b x H P IH]; intros; [now rewrite app_nil_r|].
  cbn [app furef]. unfold fustop, stop_table in H.
  destruct (is_header_field b) as [ok|]; try discriminate.
  injection H as H. rewrite H, IH, <- app_assoc. reflexivity.
Qed.

Lemma fnref_pass d norm x : pass (fnstop d norm) x -> forall r acc,
  fnref d norm false (x ++ r) acc = fnref d norm false r (acc ++ x).
Proof.
  induction 1 as [|b x H P IH]; intros; [now rewrite app_nil_r|].
  cbn [app fnref andb]. unfold fnstop, stop_table in H.
  destruct (is_token b) as [ok|]; try discriminate.
  injection H as H. rewrite H, IH, <- app_assoc. reflexivity.
Qed.

Lemma fnref_noskip d norm b t acc : isws b = false ->
  fnref d norm true (b :: t) acc = fnref d norm false (b :: t) acc.
Proof. intros H. cbn [fnref]. now rewrite H. Qed.

Lemma fn_replay b mk sl x y :
  bs_mark (bs_replay (Ctx b mk (sl ++ x ++ [b]) y)) = Ctx b (mk + length (sl ++ x)) [] (b :: y).
Proof. rewrite replay_app. reflexivity. Qed.

Ltac keeps_by Er := unfold keeps, cindex; rewrite ?Er; keep.

Lemma field_quoted_ref fuel d : forall c name acc, (length (crest c) < fuel)%nat ->
  shape (field_quoted fuel d c name acc) = fqref d (cbyte c) (crest c) name acc /\
  keeps c (field_quoted fuel d c name acc).
Proof.
  induction fuel as [|fuel IH]; intros c name acc L; [lia|].
  cbn [field_quoted]. unfold collect_quoted_field.
  pose proof (collect_mark fqstop c) as H. unfold fqstop in H at 2.
  inversion H as [P E | x b y Er P Hb E | x b y Er P Hb E].
  - unfold submit_error. rewrite jump_end_eq. cbn [app cbyte].
    split; [|keep].
    rewrite <- (app_nil_r (crest c)), fqref_pass by auto. rewrite ?app_nil_r. reflexivity.
  - cbn [app]. rewrite ignore_snoc. cbn [cbyte].
    assert (Hq : is_quoted_header_field b = Some false).
    { unfold fqstop, stop_table in Hb. destruct (is_quoted_header_field b) as [[]|]; try discriminate. reflexivity. }
    rewrite Er, fqref_pass by auto. rewrite Er in L. rewrite app_length in L. cbn [length] in L.
    cbn [fqref]. rewrite Hq. destruct (b =? 34) eqn:E34.
    + unfold consume_linear_space.
      pose proof (collect_plain wsstop (Ctx b (cindex c) (x ++ [b]) y)) as W. unfold wsstop in W at 2.
      inversion W as [P' E' | x' b' y' Er' P' Hb' E' | x' b' y' Er' P' Hb' E']; cbn [crest cslice cmark] in *.
      * split; [|keeps_by Er].
        rewrite <- (app_nil_r y), fclose_pass by auto. rewrite ?app_nil_r. reflexivity.
      * subst y. rewrite fclose_pass by auto. cbn [fclose]. rewrite (ws_stop _ Hb').
        destruct y' as [|z y'].
        -- unfold bs_next. cbn [crest]. split; [reflexivity|keeps_by Er].
        -- rewrite next_eq. cbn [cbyte]. destruct (z =? d).
           ++ split; [reflexivity|keeps_by Er].
           ++ unfold submit_error. rewrite jump_end_eq. split; [reflexivity|keeps_by Er].
      * discriminate.
    + destruct (b =? 92) eqn:E92.
      * destruct y as [|z y].
        -- unfold bs_next. cbn [crest]. unfold submit_error. rewrite jump_end_eq. split; [reflexivity|keeps_by Er].
        -- rewrite next_eq. cbn [cbyte].
           edestruct IH as [S K]; [|rewrite S]; [cbn [crest length] in *; lia|].
           split; [cbn [cbyte crest]; rewrite <- app_assoc; reflexivity|]. unfold keeps in K |- *. rewrite K. keeps_by Er.
      * unfold submit_error. rewrite jump_end_eq. split; [reflexivity|keeps_by Er].
  - split; [|keeps_by Er]. rewrite Er, fqref_pass by auto. cbn [fqref].
    unfold fqstop, stop_table in Hb. destruct (is_quoted_header_field b) as [[]|]; try discriminate. reflexivity.
Qed.

Lemma field_unquoted_ref d b mk sl x y name : isws b = false ->
  let c := Ctx b mk (sl ++ x ++ [b]) y in
  shape (field_unquoted d c name) = furef d (b :: y) name [] /\ keeps c (field_unquoted d c name).
Proof.
  intros W c. unfold field_unquoted, collect_field. subst c. rewrite fn_replay.
  pose proof (collect_plain (fustop d) (Ctx b (mk + length (sl ++ x)) [] (b :: y))) as H.
  unfold fustop in H at 2.
  inversion H as [P E | x' b' y' Er P Hb E | x' b' y' Er P Hb E]; cbn [crest cslice cmark cbyte] in *.
  - split; [|keep]. rewrite <- (app_nil_r (b :: y)), furef_pass by auto. rewrite ?app_nil_r. reflexivity.
  - cbn [app]. rewrite ignore_snoc.
    assert (Z : (bs_slice_length (Ctx b' (mk + length (sl ++ x)) (x' ++ [b']) y') =? 0)%nat = false).
    { unfold bs_slice_length. cbn [cslice]. now rewrite length_snoc. }
    rewrite Z. assert (Hl := f_equal (@length _) Er). rewrite app_length in Hl. cbn [length] in Hl.
    rewrite Er, furef_pass by auto. cbn [furef cbyte].
    unfold fustop, stop_table in Hb. destruct (is_header_field b') as [ok|]; try discriminate.
    injection Hb as Hb. rewrite Hb.
    destruct (b' =? d).
    + split; [reflexivity|keep].
    + unfold submit_error. rewrite jump_end_eq. split; [reflexivity|keep].
  - assert (Hl := f_equal (@length _) Er). rewrite app_length in Hl. cbn [length] in Hl.
    split; [|keep]. rewrite Er, furef_pass by auto. cbn [furef].
    unfold fustop, stop_table in Hb. destruct (is_header_field b') as [ok|]; try discriminate. reflexivity.
Qed.

Lemma field_value_ref fuel d c name : (length (crest c) < fuel)%nat ->
  shape (field_value fuel d c name) = fvref d (crest c) name /\ keeps c (field_value fuel d c name).
Proof.
  intros L. unfold field_value, consume_linear_space.
  pose proof (collect_plain wsstop c) as W. unfold wsstop in W at 2.
  inversion W as [P E | x b y Er P Hb E | x b y Er P Hb E].
  - split; [|keep]. rewrite <- (app_nil_r (crest c)), fvref_pass by auto. rewrite ?app_nil_r. reflexivity.
  - rewrite Er in L. rewrite app_length in L. cbn [length] in L.
    rewrite Er, fvref_pass by auto. cbn [fvref cbyte]. rewrite (ws_stop _ Hb).
    destruct (b =? 34).
    + edestruct (field_quoted_ref fuel d) as [S K]; [|rewrite S]; [cbn [crest length] in *; lia|].
      split; [reflexivity|]. unfold keeps in K |- *. rewrite K. keeps_by Er.
    + destruct (field_unquoted_ref d b (cmark c) (cslice c) x y name (ws_stop _ Hb)) as [S K].
      rewrite S. split; [reflexivity|]. unfold keeps in K |- *. rewrite K. keeps_by Er.
  - discriminate.
Qed.

Lemma field_name_ref fuel d norm : forall c acc, (length (crest c) < fuel)%nat ->
  shape (field_name fuel d norm c acc) = fnref d norm true (crest c) acc /\
  keeps c (field_name fuel d norm c acc).
Proof.
  induction fuel as [|fuel IH]; intros c acc L; [lia|].
  cbn [field_name]. unfold consume_linear_space.
  pose proof (collect_plain wsstop c) as W. unfold wsstop in W at 2.
  inversion W as [P E | x b y Er P Hb E | x b y Er P Hb E].
  - split; [|keep]. rewrite <- (app_nil_r (crest c)), fnref_ws by auto. rewrite ?app_nil_r. reflexivity.
  - rewrite Er in L. rewrite app_length in L. cbn [length] in L.
    rewrite Er, fnref_ws, fnref_noskip by (auto using ws_stop). rewrite fn_replay.
    unfold collect_tokens.
    pose proof (collect_plain (fnstop d norm) (Ctx b (cmark c + length (cslice c ++ x)) [] (b :: y))) as H.
    unfold fnstop in H at 2.
    inversion H as [P' E' | x' b' y' Er' P' Hb' E' | x' b' y' Er' P' Hb' E']; cbn [crest cslice cmark cbyte] in *.
    + cbn [app bs_slice cslice]. rewrite zero_lt. split; [|keeps_by Er].
      rewrite <- (app_nil_r (b :: y)), fnref_pass by auto. rewrite ?app_nil_r. reflexivity.
    + cbn [app]. rewrite ignore_snoc.
      assert (Hl := f_equal (@length _) Er'). rewrite app_length in Hl. cbn [length] in Hl.
      rewrite Er', fnref_pass by auto. cbn [fnref andb].
      unfold fnstop, stop_table in Hb'. destruct (is_token b') as [ok|]; try discriminate.
      injection Hb' as Hb'. rewrite Hb'.
      destruct (b' =? 61).
      { edestruct (field_value_ref fuel d) as [S K]; [|rewrite S]; [cbn [crest length] in *; lia|].
        split; [reflexivity|]. unfold keeps in K |- *. rewrite K. keeps_by Er. }
      destruct (b' =? 47).
      { edestruct IH as [S K]; [|rewrite S]; [cbn [crest length] in *; lia|].
        split; [reflexivity|]. unfold keeps in K |- *. rewrite K. keeps_by Er. }
      destruct (b' =? d); [split; [reflexivity|keeps_by Er]|].
      destruct (is_upper b').
      { edestruct IH as [S K]; [|rewrite S]; [cbn [crest length] in *; lia|].
        split; [reflexivity|]. unfold keeps in K |- *. rewrite K. keeps_by Er. }
      unfold submit_error. rewrite jump_end_eq. split; [reflexivity|keeps_by Er].
    + assert (Hl := f_equal (@length _) Er'). rewrite app_length in Hl. cbn [length] in Hl.
      split; [|keeps_by Er]. rewrite Er', fnref_pass by auto. cbn [fnref andb].
      unfold fnstop, stop_table in Hb'. destruct (is_token b') as [ok|]; try discriminate. reflexivity.
  - discriminate.
Qed.

Lemma field_next_ref d norm c :
  shape (field_next d norm c) = fnref d norm true (crest c) [] /\ keeps c (field_next d norm c).
Proof.
  unfold field_next, bs_available. destruct (crest c) as [|b r] eqn:E.
  - cbn [length Nat.eqb]. split; [now cbn; rewrite E|reflexivity].
  - cbn [length Nat.eqb].
    destruct (field_name_ref (S (S (length r))) d norm c []) as [S K]; [rewrite E; cbn; lia|].
    rewrite E in S. split; [exact S|exact K].
Qed.
