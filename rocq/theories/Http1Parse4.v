(* What the automaton accepts, against the grammar of Http1Accept.v:
   URL-encoded bodies. *)

From Coq Require Import NArith List Bool Arith String Lia.
From Verif Require Import Bytes ByteStream Http1Model Http1Base Http1Wp Http1Term Http1Spec Http1Sem
  Http1Sim Http1Step Http1Misc Http1Run Http1Client Http1Api Http1Protocol Http1Data Http1Wire
  Http1Round Http1Round2 Http1Accept Http1Parse Http1Parse2.
Import ListNotations.
Local Open Scope N_scope.

Lemma hex_digit_inv b v : hex_digit b = Some v -> hexdigit b /\ v = hexval b.
Proof.
  intros H. assert (X : hexdigit b).
  { apply hex_inv. unfold hex_digit in H. unfold is_hex. rewrite !orb_true_iff, !andb_true_iff, !N.leb_le.
    destruct (is_digit b); [auto|].
    destruct (N.ltb_spec 64 b), (N.ltb_spec b 71); cbn [andb] in H; try (left; right; unfold byte in *; lia);
      destruct (N.ltb_spec 96 b), (N.ltb_spec b 103); cbn [andb] in H; try discriminate H; right; unfold byte in *; lia. }
  split; [exact X|]. rewrite hexdigit_digit in H by exact X. congruence.
Qed.

Lemma go_inj ev a ev' a' : AGo ev a = AGo ev' a' -> ev = ev' /\ a = a'.
Proof. intros H. split; congruence. Qed.

Section Text.
  Variables (clen : list fevent -> option N).
  Notation run := (aexec UrlEncoded None clen).

  (* The result of a run over a body that is not refused. *)
  Definition lasts (a : astate) (l : list fevent) (r : list byte) (L : list fevent) : Prop :=
    exists aF, run a l r = ADone L aF [].

  Lemma lasts_step a l r L : needs_byte (a_st a) = true -> lasts a l r L ->
    (r = [] /\ L = l) \/
    (exists b r' ev a', r = b :: r' /\ abyte_raw None a b = AGo ev a' /\ lasts (nrm UrlEncoded a') (l ++ ev) r' L).
  Proof.
    intros N (aF & E). destruct r as [|b r].
    - rewrite aexec_nil in E by exact N. injection E as -> _. now left.
    - right. rewrite aexec_byte in E by exact N. unfold abyte in E.
      destruct (abyte_raw None a b) as [ev a'|ev e|] eqn:R; try discriminate E.
      exists b, r, ev, a'. repeat split; [exact R|]. now exists aF.
  Qed.

  Variables (s s1 s2 sp : pstate) (k : dkind) (stop : list byte) (err : byte -> perror).
  Hypothesis Ns : needs_byte s = true.
  Hypothesis Ns1 : needs_byte s1 = true.
  Hypothesis Ns2 : needs_byte s2 = true.
  Hypothesis Us : uses_hex s = false.
  Hypothesis Us1 : uses_hex s1 = false.
  Hypothesis Us2 : uses_hex s2 = true.
  Hypothesis Usp : uses_hex sp = false.
  Hypothesis H37 : abyte_raw None (A s 0 0 0) 37 = AGo [] (A s1 0 0 0).
  Hypothesis H43 : abyte_raw None (A s 0 0 0) 43 = AGo [] (A sp 0 0 0).
  Hypothesis Hlit : forall b, b <> 37 -> b <> 43 -> ~ In b stop -> abyte_raw None (A s 0 0 0) b =
    (if is_visible_7bit b then AGo [FByte k b] (A s 0 0 0) else AErr (err b)).
  Hypothesis Hp : forall l, aeps UrlEncoded clen l (A sp 0 0 0) = Some ([FByte k 32], A s 0 0 0).
  Hypothesis H1 : forall b, abyte_raw None (A s1 0 0 0) b = a_hex1 (A s1 0 0 0) s2 err b.
  Hypothesis H2 : forall u b, abyte_raw None (A s2 0 u 0) b = a_hex2 (A s2 0 u 0) k s err b.

  Lemma text_inv L : forall j r l, (List.length r <= j)%nat -> lasts (A s 0 0 0) l r L ->
    exists d w, coded stop d w /\
      ((exists c, cut_escape c /\ r = w ++ c /\ L = l ++ map (FByte k) d) \/
       (exists b r', In b stop /\ r = w ++ b :: r' /\ lasts (A s 0 0 0) (l ++ map (FByte k) d) (b :: r') L)).
  Proof.
    induction j as [|j IH]; intros r l Len F.
    { destruct r; [|cbn in Len; lia]. destruct F as (aF & E). rewrite aexec_nil in E by exact Ns. injection E as -> _.
      exists [], []. split; [constructor|left]. exists []. repeat split; [now left|]. cbn [map]. now rewrite app_nil_r. }
    pose proof F as F0.
    apply lasts_step in F; [|exact Ns]. destruct F as [[-> ->]|(b & r' & ev & a & -> & R & F)].
    { exists [], []. split; [constructor|left]. exists []. repeat split; [now left|]. cbn [map]. now rewrite app_nil_r. }
    cbn [List.length] in Len.
    destruct (in_dec N.eq_dec b stop) as [S|S].
    { exists [], []. split; [constructor|right]. exists b, r'. cbn [map]. rewrite app_nil_r. now repeat split. }
    assert (GO : forall (x : list byte) c y, (List.length y <= j)%nat -> b :: r' = x ++ y ->
               (forall d w, coded stop d w -> coded stop (c :: d) (x ++ w)) ->
               lasts (A s 0 0 0) (l ++ [FByte k c]) y L ->
               exists d w, coded stop d w /\
      ((exists c, cut_escape c /\ b :: r' = w ++ c /\ L = l ++ map (FByte k) d) \/
       (exists b' r2, In b' stop /\ b :: r' = w ++ b' :: r2 /\ lasts (A s 0 0 0) (l ++ map (FByte k) d) (b' :: r2) L))).
    { intros x c y Ly E X G. destruct (IH y _ Ly G) as (d & w & D & Q). exists (c :: d), (x ++ w).
      split; [now apply X|]. rewrite E. destruct Q as [(c' & C & -> & ->)|(b' & r2 & B & -> & G2)].
      - left. exists c'. cbn [map]. rewrite <- !app_assoc. now repeat split.
      - right. exists b', r2. rewrite <- !app_assoc in *. now repeat split. }
    destruct (N.eq_dec b 37) as [->|N37].
    { rewrite H37 in R. injection R as <- <-. cbn [nrm a_st] in F. rewrite Us1, app_nil_r in F.
      apply lasts_step in F; [|exact Ns1]. destruct F as [[-> ->]|(x & r2 & ev & a & -> & R & F)].
      { exists [], []. split; [constructor|left]. exists [37]. cbn [map]. rewrite app_nil_r. repeat split. right; now left. }
      rewrite H1 in R. unfold a_hex1 in R. destruct (hex_digit x) as [v|] eqn:X; [|discriminate R].
      apply hex_digit_inv in X. destruct X as [X ->]. apply go_inj in R. destruct R as [<- <-].
      cbn [nrm st_up a_st a_lo a_up a_len] in F. rewrite Us2, app_nil_r in F.
      apply lasts_step in F; [|exact Ns2]. destruct F as [[-> ->]|(y & r3 & ev & a & -> & R & F)].
      { exists [], []. split; [constructor|left]. exists [37; x]. cbn [map]. rewrite app_nil_r. repeat split. right; right. eauto. }
      rewrite H2 in R. unfold a_hex2 in R. destruct (hex_digit y) as [v|] eqn:Y; [|discriminate R].
      apply hex_digit_inv in Y. destruct Y as [Y ->]. apply go_inj in R. destruct R as [<- <-]. cbn [a_up] in F.
      rewrite hex_byte in F by assumption. cbn [nrm st_lo a_st a_lo a_up a_len] in F. rewrite Us in F.
      apply (GO [37; x; y] (16 * hexval x + hexval y) r3); [cbn [List.length] in Len; lia|reflexivity| |exact F].
      intros d w D. now apply coded_escape. }
    destruct (N.eq_dec b 43) as [->|N43].
    { rewrite H43 in R. injection R as <- <-. cbn [nrm a_st] in F. rewrite Usp, app_nil_r in F.
      destruct F as (aF & F). rewrite (aexec_eps _ _ _ (A sp 0 0 0) _ _ [FByte k 32] (A s 0 0 0)) in F by now rewrite Hp.
      apply (GO [43] 32 r'); [lia|reflexivity| |now exists aF]. intros d w D. now apply coded_plus. }
    rewrite Hlit in R by assumption. destruct (is_visible_7bit b) eqn:V; [|discriminate R]. injection R as <- <-.
    cbn [nrm a_st] in F. rewrite Us in F.
    apply (GO [b] b r'); [lia|reflexivity| |exact F]. intros d w D. apply coded_literal; try assumption.
    cbn. intros [X|[X|[]]]; subst; congruence.
  Qed.

  Lemma text_run d w : coded stop d w -> forall l r,
    run (A s 0 0 0) l (w ++ r) = run (A s 0 0 0) (l ++ map (FByte k) d) r.
  Proof.
    induction 1 as [|b d w V NP S _ IH|d w _ IH|x y d w Hx Hy _ IH]; intros l r; cbn [app map].
    - now rewrite app_nil_r.
    - rewrite aexec_byte by exact Ns. unfold abyte. rewrite Hlit; [| | |exact S].
      + change (is_visible_7bit b = true) in V. rewrite V. cbn [nrm a_st]. rewrite Us, IH. now rewrite <- app_assoc.
      + intros ->. apply NP. cbn. auto.
      + intros ->. apply NP. cbn. auto.
    - rewrite aexec_byte by exact Ns. unfold abyte. rewrite H43. cbn [nrm a_st]. rewrite Usp.
      rewrite (aexec_eps _ _ _ (A sp 0 0 0) _ _ [FByte k 32] (A s 0 0 0)) by now rewrite Hp.
      rewrite IH. now rewrite app_nil_r, <- app_assoc.
    - rewrite aexec_byte by exact Ns. unfold abyte. rewrite H37. cbn [nrm a_st]. rewrite Us1.
      rewrite aexec_byte by exact Ns1. unfold abyte. rewrite H1. unfold a_hex1.
      rewrite hexdigit_digit by assumption. cbn [nrm st_up a_st a_lo a_up a_len]. rewrite Us2.
      rewrite aexec_byte by exact Ns2. unfold abyte. rewrite H2. unfold a_hex2.
      rewrite hexdigit_digit by assumption. cbn [nrm st_lo a_st a_lo a_up a_len]. rewrite Us.
      rewrite hex_byte by assumption. rewrite IH. now rewrite !app_nil_r, <- app_assoc.
  Qed.

  Lemma cut_run c l : cut_escape c -> exists a, run (A s 0 0 0) l c = ADone l a [] /\
    (a_st a = s \/ a_st a = s1 \/ a_st a = s2).
  Proof.
    intros [->|[->|(x & X & ->)]].
    - rewrite aexec_nil by exact Ns. eexists. split; [reflexivity|now left].
    - rewrite aexec_byte by exact Ns. unfold abyte. rewrite H37. cbn [nrm a_st]. rewrite Us1, app_nil_r.
      rewrite aexec_nil by exact Ns1. eexists. split; [reflexivity|auto].
    - rewrite aexec_byte by exact Ns. unfold abyte. rewrite H37. cbn [nrm a_st]. rewrite Us1, app_nil_r.
      rewrite aexec_byte by exact Ns1. unfold abyte. rewrite H1. unfold a_hex1.
      rewrite hexdigit_digit by assumption. cbn [nrm st_up a_st a_lo a_up a_len]. rewrite Us2, app_nil_r.
      rewrite aexec_nil by exact Ns2. eexists. split; [reflexivity|auto].
  Qed.
End Text.

Section Url.
  Variables (clen : list fevent -> option N).
  Notation run := (aexec UrlEncoded None clen).
  Notation Name := (A StUrlEncodedName 0 0 0).
  Notation Value := (A StUrlEncodedValue 0 0 0).
  Notation First := (A StFirstUrlEncodedName 0 0 0).

  Lemma name_lit b : b <> 37 -> b <> 43 -> ~ In b (bs "=&;") -> abyte_raw None Name b =
    (if is_visible_7bit b then AGo [FByte KUrlName b] Name else AErr (ErUrlEncodedName b)).
  Proof.
    intros N1 N2 N3. cbn [abyte_raw a_st]. unfold a_url_name. cbn in N3.
    destruct (N.eqb_spec b 37); [congruence|]. destruct (N.eqb_spec b 43); [congruence|].
    destruct (N.eqb_spec b 61); [exfalso; auto|]. destruct (N.eqb_spec b 38); [exfalso; auto|].
    destruct (N.eqb_spec b 59); [exfalso; auto|]. reflexivity.
  Qed.
  Lemma value_lit b : b <> 37 -> b <> 43 -> ~ In b (bs "&;") -> abyte_raw None Value b =
    (if is_visible_7bit b then AGo [FByte KUrlValue b] Value else AErr (ErUrlEncodedValue b)).
  Proof.
    intros N1 N2 N3. cbn [abyte_raw a_st]. unfold a_url_value. cbn in N3.
    destruct (N.eqb_spec b 37); [congruence|]. destruct (N.eqb_spec b 43); [congruence|].
    destruct (N.eqb_spec b 38); [exfalso; auto|].
    destruct (N.eqb_spec b 59); [exfalso; auto|]. reflexivity.
  Qed.

  Definition uname_inv :=
    text_inv clen StUrlEncodedName StUrlEncodedNameHex1 StUrlEncodedNameHex2 StUrlEncodedNamePlus KUrlName (bs "=&;")
      ErUrlEncodedName eq_refl eq_refl eq_refl eq_refl eq_refl eq_refl eq_refl eq_refl eq_refl name_lit (fun _ => eq_refl)
      (fun _ => eq_refl) (fun _ _ => eq_refl).
  Definition uvalue_inv :=
    text_inv clen StUrlEncodedValue StUrlEncodedValueHex1 StUrlEncodedValueHex2 StUrlEncodedValuePlus KUrlValue (bs "&;")
      ErUrlEncodedValue eq_refl eq_refl eq_refl eq_refl eq_refl eq_refl eq_refl eq_refl eq_refl value_lit (fun _ => eq_refl)
      (fun _ => eq_refl) (fun _ _ => eq_refl).
  Definition uname_run :=
    text_run clen StUrlEncodedName StUrlEncodedNameHex1 StUrlEncodedNameHex2 StUrlEncodedNamePlus KUrlName (bs "=&;")
      ErUrlEncodedName eq_refl eq_refl eq_refl eq_refl eq_refl eq_refl eq_refl eq_refl eq_refl name_lit (fun _ => eq_refl)
      (fun _ => eq_refl) (fun _ _ => eq_refl).
  Definition uvalue_run :=
    text_run clen StUrlEncodedValue StUrlEncodedValueHex1 StUrlEncodedValueHex2 StUrlEncodedValuePlus KUrlValue (bs "&;")
      ErUrlEncodedValue eq_refl eq_refl eq_refl eq_refl eq_refl eq_refl eq_refl eq_refl eq_refl value_lit (fun _ => eq_refl)
      (fun _ => eq_refl) (fun _ _ => eq_refl).
  Definition uname_cut :=
    cut_run clen StUrlEncodedName StUrlEncodedNameHex1 StUrlEncodedNameHex2
      ErUrlEncodedName eq_refl eq_refl eq_refl eq_refl eq_refl eq_refl (fun _ => eq_refl).
  Definition uvalue_cut :=
    cut_run clen StUrlEncodedValue StUrlEncodedValueHex1 StUrlEncodedValueHex2
      ErUrlEncodedValue eq_refl eq_refl eq_refl eq_refl eq_refl eq_refl (fun _ => eq_refl).

  Lemma pairs_inv L : forall j r l, (List.length r <= j)%nat -> lasts clen First l r L ->
    exists e, pairs_as r e /\ L = l ++ e.
  Proof.
    induction j as [|j IH]; intros r l Len F.
    { destruct r; [|cbn in Len; lia]. destruct F as (aF & E). rewrite aexec_nil in E by reflexivity.
      injection E as -> _. exists []. split; [constructor|]. now rewrite app_nil_r. }
    destruct r as [|b0 r0] eqn:ER.
    { destruct F as (aF & E). rewrite aexec_nil in E by reflexivity.
      injection E as -> _. exists []. split; [constructor|]. now rewrite app_nil_r. }
    rewrite <- ER in *. assert (NE : r <> []) by now rewrite ER.
    assert (G : lasts clen Name (l ++ [FEv EUrlBegin]) r L).
    { rewrite ER in F |- *. destruct F as (aF & F). rewrite url_first in F. now exists aF. }
    clear F b0 r0 ER.
    assert (SEP : forall x (w : list byte) e b r', r = w ++ b :: r' -> pair_as [] w e -> b = 38 \/ b = 59 ->
              lasts clen (A x 0 0 0) (l ++ e) (b :: r') L -> x = StUrlEncodedName \/ x = StUrlEncodedValue ->
              exists e, pairs_as r e /\ L = l ++ e).
    { intros x w e b r' -> P B Q X.
      apply lasts_step in Q; [|destruct X as [-> | ->]; reflexivity].
      destruct Q as [[Y _]|(b' & r2 & ev & a & [= <- <-] & R & Q)]; [discriminate Y|].
      assert (Z : ev = [] /\ nrm UrlEncoded a = First).
      { destruct X as [-> | ->], B as [-> | ->]; cbn in R; injection R as <- <-; split; reflexivity. }
      destruct Z as [-> Z]. rewrite Z, app_nil_r in Q.
      destruct (IH r' (l ++ e)) as (e' & P' & ->); [rewrite app_length in Len; cbn [List.length] in Len; lia|exact Q|].
      exists (e ++ e'). split; [|now rewrite app_assoc]. apply (pairs_more w e b r' e'); assumption. }
    destruct (uname_inv L _ _ _ (le_n _) G) as (d & w & D & [(c & C & E & ->)|(b & r' & B & E & Q)]).
    - subst r. exists ([FEv EUrlBegin] ++ map (FByte KUrlName) d). split; [|now rewrite app_assoc].
      apply (pairs_last c); [exact NE|]. now apply pair_only.
    - rewrite <- app_assoc in Q. destruct B as [<-|B].
      + apply lasts_step in Q; [|reflexivity].
        destruct Q as [[Y _]|(b' & r2 & ev & a & [= <- <-] & R & Q)]; [discriminate Y|].
        cbn in R. injection R as <- <-. rewrite app_nil_r in Q. change (nrm UrlEncoded _) with Value in Q.
        destruct (uvalue_inv L _ _ _ (le_n _) Q) as (d2 & w2 & D2 & [(c & C & -> & ->)|(b & r2 & B & -> & Q2)]).
        * exists ([FEv EUrlBegin] ++ map (FByte KUrlName) d ++ map (FByte KUrlValue) d2). split; [|now rewrite <- !app_assoc].
          apply (pairs_last c); [exact NE|]. rewrite E.
          change (w ++ 61 :: w2 ++ c) with (w ++ [61] ++ w2 ++ c). now apply pair_both.
        * apply (SEP StUrlEncodedValue (w ++ [61] ++ w2 ++ []) ([FEv EUrlBegin] ++ map (FByte KUrlName) d ++ map (FByte KUrlValue) d2) b r2).
          -- rewrite E. lists.
          -- apply pair_both; [now left|exact D|exact D2].
          -- cbn in B. destruct B as [<-|[<-|[]]]; auto.
          -- rewrite <- !app_assoc in Q2. rewrite <- ?app_assoc. exact Q2.
          -- auto.
      + apply (SEP StUrlEncodedName (w ++ []) ([FEv EUrlBegin] ++ map (FByte KUrlName) d) b r').
        * now rewrite app_nil_r.
        * apply pair_only; [now left|exact D].
        * cbn in B. destruct B as [<-|[<-|[]]]; auto.
        * exact Q.
        * auto.
  Qed.

  Definition url_state (s : pstate) : bool :=
    match s with
    | StFirstUrlEncodedName | StUrlEncodedName | StUrlEncodedNameHex1 | StUrlEncodedNameHex2
    | StUrlEncodedValue | StUrlEncodedValueHex1 | StUrlEncodedValueHex2 => true
    | _ => false
    end.

  Lemma pair_run c w e l : pair_as c w e -> w <> [] ->
    exists a, run First l w = ADone (l ++ e) a [] /\ url_state (a_st a) = true.
  Proof.
    intros P NE.
    assert (X : run First l w = run Name (l ++ [FEv EUrlBegin]) w) by (destruct w; [congruence|apply url_first]).
    rewrite X. destruct P as [n w c C H|n v w w' c C H H'].
    - rewrite (uname_run _ _ H). destruct (uname_cut c ((l ++ [FEv EUrlBegin]) ++ map (FByte KUrlName) n) C) as (a & -> & S).
      exists a. split; [now rewrite <- !app_assoc|]. destruct S as [-> |[-> | ->]]; reflexivity.
    - rewrite (uname_run _ _ H). cbn [app].
      rewrite (ukeep clen StUrlEncodedName 61 [] StUrlEncodedValue); try reflexivity; [|now exists 0, 0].
      rewrite (uvalue_run _ _ H').
      match goal with |- context [run Value ?l c] => destruct (uvalue_cut c l C) as (a & -> & S) end.
      exists a. split; [now rewrite app_nil_r, <- !app_assoc|]. destruct S as [-> |[-> | ->]]; reflexivity.
  Qed.

  Lemma pair_sep w e s l r : pair_as [] w e -> s = 38 \/ s = 59 ->
    run First l (w ++ s :: r) = run First (l ++ e) r.
  Proof.
    intros P S. remember [] as c eqn:Ec.
    assert (X : run First l (w ++ s :: r) = run Name (l ++ [FEv EUrlBegin]) (w ++ s :: r)) by (destruct w; apply url_first).
    rewrite X. destruct P as [n w c C H|n v w w' c C H H']; subst c; rewrite !app_nil_r.
    - rewrite (uname_run _ _ H).
      rewrite (ukeep clen StUrlEncodedName s [] StFirstUrlEncodedName); try reflexivity;
        [|exists 0, 0; destruct S as [-> | ->]; reflexivity].
      now rewrite app_nil_r, <- !app_assoc.
    - rewrite <- !app_assoc. rewrite (uname_run _ _ H). cbn [app].
      rewrite (ukeep clen StUrlEncodedName 61 [] StUrlEncodedValue); try reflexivity; [|now exists 0, 0].
      rewrite (uvalue_run _ _ H').
      rewrite (ukeep clen StUrlEncodedValue s [] StFirstUrlEncodedName); try reflexivity;
        [|exists 0, 0; destruct S as [-> | ->]; reflexivity].
      now rewrite !app_nil_r, <- !app_assoc.
  Qed.

  Lemma pairs_run w e : pairs_as w e -> forall l,
    exists a, run First l w = ADone (l ++ e) a [] /\ url_state (a_st a) = true.
  Proof.
    induction 1 as [|c w e NE P|w e s w' e' P S _ IH]; intros l.
    - exists First. rewrite aexec_nil by reflexivity. now rewrite app_nil_r.
    - now apply (pair_run c).
    - cbn [app]. rewrite (pair_sep w e s l w' P S). rewrite app_assoc. apply IH.
  Qed.

  (* the automaton of a URL-encoded body stops only at the end of the input *)
  Lemma url_lasts : forall r a l L aF rest,
    url_state (a_st a) || match a_st a with StUrlEncodedNamePlus | StUrlEncodedValuePlus => true | _ => false end = true ->
    run a l r = ADone L aF rest -> rest = [] /\ url_state (a_st aF) = true.
  Proof.
    assert (P : forall r, (forall a l L aF rest, url_state (a_st a) = true -> run a l r = ADone L aF rest -> rest = [] /\ url_state (a_st aF) = true) ->
              forall a l L aF rest, match a_st a with StUrlEncodedNamePlus | StUrlEncodedValuePlus => true | _ => false end = true ->
              run a l r = ADone L aF rest -> rest = [] /\ url_state (a_st aF) = true).
    { intros r H a l L aF rest S E. destruct a as [s lo up len]. cbn [a_st] in S. destruct s; try discriminate S.
      - rewrite (aexec_eps _ _ _ (A StUrlEncodedNamePlus lo up len) _ _ [FByte KUrlName 32] Name) in E by reflexivity.
        now apply H in E.
      - rewrite (aexec_eps _ _ _ (A StUrlEncodedValuePlus lo up len) _ _ [FByte KUrlValue 32] Value) in E by reflexivity.
        now apply H in E. }
    assert (Q : forall r a l L aF rest, url_state (a_st a) = true -> run a l r = ADone L aF rest -> rest = [] /\ url_state (a_st aF) = true).
    { induction r as [|b r IH]; intros a l L aF rest S E.
      - rewrite aexec_nil in E by (destruct (a_st a); try discriminate S; reflexivity). injection E as _ <- <-. now split.
      - rewrite aexec_byte in E by (destruct (a_st a); try discriminate S; reflexivity). unfold abyte in E.
        destruct (abyte_raw None a b) as [ev a'|ev e|] eqn:R; try discriminate E.
        assert (X : url_state (a_st (nrm UrlEncoded a')) = true \/
                    match a_st (nrm UrlEncoded a') with StUrlEncodedNamePlus | StUrlEncodedValuePlus => true | _ => false end = true).
        { destruct a as [s lo up len]. cbn [a_st] in S. destruct s; try discriminate S;
            cbn [abyte_raw a_st] in R; cases R; auto. }
        destruct X as [X|X]; [now apply IH in E|now apply P in E]. }
    intros r a l L aF rest S E. apply orb_true_iff in S. destruct S as [S|S]; [now apply Q in E|exact (P r (Q r) _ _ _ _ _ S E)].
  Qed.
End Url.

Lemma url_exact h q n segs tail L : segs <> [] ->
  (exists p' log, feed h (set_length (init_url_encoded q) n) segs = (p', log, tail, OFinished) /\ flat log = L) <->
  (exists w e, List.concat segs = w ++ tail /\ N.of_nat (List.length w) = n /\ pairs_as w e /\
     L = e ++ [FEv EBodyFinished]).
Proof.
  intros NE. unfold feed. rewrite (client_no_clen h) by (reflexivity || discriminate).
  pose proof (feed_iff (no_clen h) (fun _ => None) (set_length (init_url_encoded q) n) segs L tail) as X.
  unfold feed in X. rewrite X; clear X; [|reflexivity| |assumption|discriminate].
  2:{ constructor; try reflexivity; try discriminate. left; reflexivity. }
  unfold rsem, usem. cbn [parser_type set_length with_length init_url_encoded reset with_type p_set_state plength].
  set (k := N.to_nat n).
  match goal with |- context [psem ?c ?p ?l ?w] => replace (psem c p l w) with (aexec UrlEncoded None c (A StFirstUrlEncodedName 0 0 0) l w) by reflexivity end.
  split.
  - intros (aF & E & F).
    destruct (aexec UrlEncoded None (fun _ => None) (A StFirstUrlEncodedName 0 0 0) [] (firstn k (List.concat segs))) as [l1 a1 rest|l1 e rest|l1] eqn:R;
      try discriminate E.
    destruct (url_lasts _ _ (A StFirstUrlEncodedName 0 0 0) _ _ _ _ eq_refl R) as [-> S].
    assert (E' : (if (k <=? List.length (List.concat segs))%nat
                  then ADone (l1 ++ [FEv EBodyFinished]) (A StFinished 0 0 0) (skipn k (List.concat segs))
                  else ADone l1 a1 []) = ADone L aF tail).
    { destruct (a_st a1); try discriminate S; exact E. }
    clear E. destruct (Nat.leb_spec k (List.length (List.concat segs))) as [Le|Lt].
    2:{ injection E' as -> <- <-. rewrite F in S. discriminate S. }
    injection E' as <- <- <-.
    destruct (pairs_inv (fun _ => None) l1 _ (firstn k (List.concat segs)) [] (le_n _)) as (e & P & ->); [now exists a1|].
    exists (firstn k (List.concat segs)), e. split; [now rewrite firstn_skipn|]. split; [|now split].
    rewrite firstn_length_le by exact Le. apply N2Nat.id.
  - intros (w & e & -> & <- & P & ->). subst k. rewrite Nat2N.id.
    rewrite firstn_app, firstn_all, Nat.sub_diag, firstn_O, app_nil_r.
    destruct (pairs_run (fun _ => None) w e P []) as (a & -> & S).
    rewrite skipn_app, skipn_all, Nat.sub_diag, skipn_O. cbn [app].
    replace (List.length w <=? List.length (w ++ tail))%nat with true
      by (symmetry; apply Nat.leb_le; rewrite app_length; lia).
    exists (A StFinished 0 0 0). split; [|reflexivity]. destruct (a_st a); try discriminate S; reflexivity.
Qed.
