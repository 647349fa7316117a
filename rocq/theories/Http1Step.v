(* The simulation step: every state function agrees with the automaton. *)

From Coq Require Import NArith List Bool Arith String Lia.
From Verif Require Import Bytes ByteStream Http1Model Http1Base Http1Wp Http1Term Http1Spec Http1Sem Http1Sim.
Import ListNotations.
Local Open Scope N_scope.

(* Tests on literal bytes. *)
Ltac ground :=
  repeat match goal with
  | |- context [match ?c with _ => _ end] =>
      match c with
      | (_ =? _) => idtac | is_upper _ => idtac | is_visible_7bit _ => idtac
      | is_digit _ => idtac | is_token _ => idtac
      end;
      let v := eval vm_compute in c in
      match v with true => idtac | false => idtac | Some true => idtac | Some false => idtac end;
      change c with v; cbv iota
  end.

(* Consume one literal byte. *)
Ltac byte_lit :=
  rewrite aexec_byte by reflexivity; unfold_a; ground; cbn_a; rewrite ?app_nil_r.

Section Step2.
  Variables (h : handler) (clen : list fevent -> option N).
  Hypothesis Hclen : forall l, h_clen h l = clen (flat l).

(* The simulation for the state s. *)
Definition simst (s : pstate) : Prop :=
  forall m, state_fn (mp m) = s -> inv m -> wp (run_fn h m) (sim_post clen m).

Lemma m14_small v : v < 2 ^ 14 -> v mod 2 ^ 14 = v.
Proof. apply N.mod_small. Qed.

Lemma digit_small b : is_digit b = true -> (b - 48) mod 2 ^ 14 = b - 48.
Proof. unfold is_digit. intros H. boolP. apply N.mod_small. cbn. lia. Qed.

Lemma hex_digit_lt b v : hex_digit b = Some v -> v < 16.
Proof.
  unfold hex_digit, is_digit.
  destruct (_ && _) eqn:E1; [intros [= <-]; boolP; lia|].
  destruct ((64 <? b) && _) eqn:E2; [intros [= <-]; boolP; lia|].
  destruct ((96 <? b) && _) eqn:E3; [intros [= <-]; boolP; lia|discriminate].
Qed.

Lemma sim_StDead : simst StDead.
Proof.
  sim_start; sim_leaf.
  all: eexists _, _, r; split; [|split; [reflexivity|split; [apply nearly_refl|reflexivity]]]; destruct r; reflexivity.
Qed.

Lemma sim_StChunkExtensionFinished : simst StChunkExtensionFinished.
Proof. sim_auto; destruct (_ =? _); try reflexivity; try discriminate; exact I. Qed.

Lemma sim_StHeaderCr2 : simst StHeaderCr2.
Proof.
  sim_auto.
  all: try (exfalso; boolP; unfold byte in *; cbn [List.length] in *; lia).
  all: cbn [skipn]; do 2 byte_lit; reflexivity.
Qed.

Lemma sim_StRequestVersionMajor1 : simst StRequestVersionMajor1.
Proof. sim_auto. rewrite digit_small by assumption. bytes1. close_leaf. Qed.
Lemma sim_StResponseVersionMajor1 : simst StResponseVersionMajor1.
Proof. sim_auto. rewrite digit_small by assumption. bytes1. close_leaf. Qed.
Lemma sim_StRequestVersionMinor1 : simst StRequestVersionMinor1.
Proof. sim_auto. rewrite digit_small by assumption. bytes1. close_leaf. Qed.
Lemma sim_StResponseVersionMinor1 : simst StResponseVersionMinor1.
Proof. sim_auto. rewrite digit_small by assumption. bytes1. close_leaf. Qed.

Lemma sim_StResponseStatusCode1 : simst StResponseStatusCode1.
Proof.
  sim_auto; repeat match goal with
  | H : negb _ = true |- _ => apply negb_true_iff in H
  | H : negb _ = false |- _ => apply negb_false_iff in H
  end.
  - do 2 bytes1. close_leaf.
  - do 3 bytes1. close_leaf.
  - do 3 bytes1. unfold m14. cbn [N.add]. rewrite N.mul_1_r. close_leaf.
Qed.
Lemma sim_StResponseStatusCode3 : simst StResponseStatusCode3.
Proof. sim_auto. bytes1. unfold m14. rewrite N.mul_1_r. close_leaf. Qed.

Lemma hex1_eq n : n < 16 -> N.shiftl n 4 mod 2 ^ 14 = 16 * n.
Proof.
  intros. rewrite N.shiftl_mul_pow2. rewrite N.mod_small; [|change (2^14) with 16384]; change (2^4) with 16; lia.
Qed.
Lemma sim_StUrlEncodedNameHex1 : simst StUrlEncodedNameHex1.
Proof. sim_auto. rewrite hex1_eq by (eapply hex_digit_lt; eassumption). bytes1. close_leaf. Qed.
Lemma sim_StUrlEncodedValueHex1 : simst StUrlEncodedValueHex1.
Proof. sim_auto. rewrite hex1_eq by (eapply hex_digit_lt; eassumption). bytes1. close_leaf. Qed.
Lemma sim_StUrlEncodedNameHex2 : simst StUrlEncodedNameHex2.
Proof.
  sim_auto.
  all: match goal with H : hex_digit _ = Some _ |- _ => pose proof (hex_digit_lt _ _ H) as L end.
  all: rewrite get_upper_set_lower by (change (2^14) with 16384; lia).
  all: rewrite (m14_small n) by (change (2^14) with 16384; lia).
  all: bytes1; close_leaf.
Qed.
Lemma sim_StUrlEncodedValueHex2 : simst StUrlEncodedValueHex2.
Proof.
  sim_auto.
  all: match goal with H : hex_digit _ = Some _ |- _ => pose proof (hex_digit_lt _ _ H) as L end.
  all: rewrite get_upper_set_lower by (change (2^14) with 16384; lia).
  all: rewrite (m14_small n) by (change (2^14) with 16384; lia).
  all: bytes1; close_leaf.
Qed.
Lemma sim_StFirstUrlEncodedName : simst StFirstUrlEncodedName.
Proof.
  sim_auto.
  all: destruct r as [|b r]; [discriminate|].
  all: rewrite !aexec_byte by reflexivity; unfold_a.
  all: change (flat [EUrlBegin]) with [FEv EUrlBegin].
  all: tests; rewrite <- ?app_assoc; reflexivity.
Qed.

Lemma sim_StUpperHeaderName : simst StUpperHeaderName.
Proof.
  sim_auto.
  all: match goal with H : is_upper _ = true |- _ => pose proof (upper_token _ H) end.
  all: bytes1; close_leaf.
Qed.
Lemma sim_StUpperChunkExtensionName : simst StUpperChunkExtensionName.
Proof.
  sim_auto.
  all: match goal with H : is_upper _ = true |- _ => pose proof (upper_token _ H) end.
  all: bytes1; close_leaf.
Qed.

Lemma sim_StMultipartDetectData : simst StMultipartDetectData.
Proof.
  sim_auto; rewrite Hclen in Heqo.
  - erewrite aexec_eps by reflexivity. rewrite Heqo.
    rewrite get_upper_set_lower by reflexivity. reflexivity.
  - erewrite aexec_eps by reflexivity. rewrite Heqo.
    rewrite get_upper_set_lower by reflexivity. reflexivity.
Qed.

Lemma sim_StRequestHttp1 : simst StRequestHttp1.
Proof.
  sim_auto; cbn [skipn flat flat_map flat1 app].
  all: try (exfalso; boolP; unfold byte in *; cbn [List.length] in *; lia).
  all: repeat byte_lit; reflexivity.
Qed.

(* ---- data of a given length ---- *)

Section ByLength.
  Variables (t : ptype) (bd : option (list byte)) (k : dkind) (more done : pstate) (lo up : N).
  Hypothesis Hn : needs_byte more = true.
  Hypothesis Hmore : forall len b, 1 < len ->
    abyte t bd (A more lo up len) b = AGo [FByte k b] (A more lo up (len - 1)).
  Hypothesis Hlast : forall b, abyte t bd (A more lo up 1) b = AGo [FByte k b] (A done lo up 0).

  Lemma aexec_length_more x : forall len l r, N.of_nat (List.length x) < len ->
    aexec t bd clen (A more lo up len) l (x ++ r) =
    aexec t bd clen (A more lo up (len - N.of_nat (List.length x))) (l ++ map (FByte k) x) r.
  Proof.
    induction x as [|b x IH]; intros len l r L; cbn [app map List.length] in *.
    - now rewrite N.sub_0_r, app_nil_r.
    - rewrite aexec_byte by exact Hn. rewrite Hmore by lia.
      rewrite IH by lia. rewrite <- app_assoc. cbn [app].
      replace (len - 1 - N.of_nat (List.length x)) with (len - N.of_nat (S (List.length x))) by lia.
      reflexivity.
  Qed.

  Lemma aexec_length_done x : forall l r, x <> [] ->
    aexec t bd clen (A more lo up (N.of_nat (List.length x))) l (x ++ r) =
    aexec t bd clen (A done lo up 0) (l ++ map (FByte k) x) r.
  Proof.
    intros l r L. destruct (exists_last L) as (x' & b & ->).
    rewrite <- app_assoc. rewrite aexec_length_more.
    - rewrite !app_length. cbn [List.length app].
      replace (N.of_nat (List.length x' + 1) - N.of_nat (List.length x')) with 1 by lia.
      rewrite aexec_byte by exact Hn. rewrite Hlast. rewrite map_app, app_assoc. reflexivity.
    - rewrite app_length. cbn [List.length]. lia.
  Qed.

  Hypothesis Hzero : forall b, abyte t bd (A more lo up 0) b = abyte t bd (A done lo up 0) b.
  Hypothesis Hd : needs_byte done = true.

  Lemma aexec_length_le len l r : r <> [] -> len <= N.of_nat (List.length r) ->
    aexec t bd clen (A more lo up len) l r =
    aexec t bd clen (A done lo up 0) (l ++ map (FByte k) (firstn (N.to_nat len) r))
          (skipn (N.to_nat len) r).
  Proof.
    intros NE L. destruct (N.eq_dec len 0) as [->|NZ].
    - cbn [N.to_nat firstn skipn map]. rewrite app_nil_r.
      destruct r as [|b r]; [congruence|]. rewrite !aexec_byte by assumption. now rewrite Hzero.
    - rewrite <- (firstn_skipn (N.to_nat len) r) at 1.
      replace (A more lo up len) with
        (A more lo up (N.of_nat (List.length (firstn (N.to_nat len) r)))).
      + apply aexec_length_done. destruct r; [congruence|].
        destruct (N.to_nat len) eqn:E; [lia|discriminate].
      + rewrite firstn_length, Nat.min_l by lia. now rewrite N2Nat.id.
  Qed.

  Lemma aexec_length_gt len l r : N.of_nat (List.length r) < len ->
    aexec t bd clen (A more lo up len) l r =
    aexec t bd clen (A more lo up (len - N.of_nat (List.length r))) (l ++ map (FByte k) r) [].
  Proof. intros L. rewrite <- (app_nil_r r) at 1. now apply aexec_length_more. Qed.
End ByLength.

Ltac len_cond :=
  intros; unfold_a; repeat match goal with
  | |- context [?a =? ?b] => destruct (a =? b) eqn:?; bytesP; try lia
  end; cbn_a; try reflexivity.

Ltac by_length k more done :=
  let NE := fresh in
  match goal with
  | H : (Datatypes.length ?r =? 0)%nat = false |- _ =>
      assert (r <> []) as NE by (intros ->; discriminate H)
  end;
  match goal with
  | H : (plength _ <=? _) = true |- _ =>
     apply N.leb_le in H;
     rewrite (aexec_length_le _ _ k more done); [| | | | | |exact NE|exact H]; [ | try reflexivity .. ];
     [| solve [len_cond].. ]
  | H : (plength _ <=? _) = false |- _ =>
     apply N.leb_gt in H;
     rewrite (aexec_length_gt _ _ k more); [| | |exact H]; [ | try reflexivity .. ];
     [| solve [len_cond].. ]
  end;
  rewrite ?firstn_all, ?skipn_all.

Lemma sim_StChunkData : simst StChunkData.
Proof.
  sim_auto; by_length KChunkData StChunkData StChunkDataCr; try reflexivity.
  - rewrite E. cbn [map]. now rewrite app_nil_r.
  - rewrite firstn_all in E. subst r. discriminate.
Qed.

Lemma sim_StMultipartDataByLength : simst StMultipartDataByLength.
Proof.
  sim_auto; by_length KMultipartData StMultipartDataByLength StMultipartDataByLengthCr; try reflexivity.
  - rewrite E. cbn [map]. now rewrite app_nil_r.
  - rewrite firstn_all in E. subst r. discriminate.
Qed.

(* ---- known header names ---- *)

Lemma aexec_name t bd a bb x l r :
  a_st a = StLowerHeaderName -> nrm t a = a ->
  Forall (fun b => is_token b = Some true) (bb :: x) ->
  aexec t bd clen a l (((bb :: x) ++ [58]) ++ r) =
  aexec t bd clen (nrm t (st a StStripHeaderValue)) (l ++ map (FByte KHeaderName) (map lower (bb :: x))) r.
Proof.
  intros Ea En F. destruct a as [s lo up len]. cbn in Ea. subst s.
  rewrite <- app_assoc.
  rewrite (aexec_loop _ _ _ _ (fun b => [FByte KHeaderName (lower b)])).
  - cbn [app]. rewrite aexec_byte by reflexivity. unfold_a.
    replace (is_token 58) with (Some false) by reflexivity. cbn -[nrm st map flat_map app].
    rewrite app_nil_r. f_equal. f_equal.
    generalize (bb :: x). clear. induction l as [|b l IH]; cbn; [reflexivity|]. now rewrite IH.
  - reflexivity.
  - eapply Forall_impl; [|exact F]. intros b Hb. cbn beta in Hb. unfold_a.
    rewrite Hb. unfold lower. destruct t; cbv [nrm a_st a_lo a_up a_len uses_lo uses_up uses_hex] in En; destruct (is_upper b); cbv [st a_st a_lo a_up a_len nrm uses_lo uses_up uses_hex]; congruence.
Qed.

Lemma sim_StFirstHeaderName : simst StFirstHeaderName.
Proof.
  sim_auto.
  all: match goal with H : In _ all_names |- _ =>
    apply all_names_spec in H; destruct H as (b0 & x & -> & -> & F & V & <- & _) end.
  all: subst r; rewrite skipn_app, skipn_all, Nat.sub_diag; cbn [skipn].
  all: rewrite (app_nil_l r').
  all: match goal with |- aexec ?t ?bd _ (A StFirstHeaderName ?lo ?up ?len) _ _ = _ =>
     transitivity (aexec t bd clen (A StLowerHeaderName lo up len) (flat l) (((b0 :: x) ++ [58]) ++ r')) end.
  all: try (cbn [app]; rewrite !aexec_byte by reflexivity; unfold_a; rewrite V; reflexivity).
  all: rewrite aexec_name; [reflexivity|reflexivity|reflexivity|exact F].
Qed.

(* ---- detection ---- *)

Lemma detect_H bd l r :
  (4 <= List.length r)%nat -> (forall y, r <> [84; 84; 80; 47] ++ y) ->
  aexec Head bd clen (A StDetect2 0 0 0) l r =
  aexec Head bd clen (A StRequestMethod 0 0 0) (l ++ [FByte KMethod 72]) r.
Proof.
  intros L H.
  destruct r as [|a [|b [|c [|d r]]]]; cbn [List.length] in L; try lia.
  rewrite (aexec_byte _ _ _ (A StDetect2 0 0 0)) by reflexivity. unfold_a.
  destruct (a =? 84) eqn:E1; cbn_a; rewrite ?app_nil_r.
  2:{ rewrite (aexec_byte _ _ _ (A StRequestMethod 0 0 0)) by reflexivity. unfold_a.
      change (map (FByte KMethod) (bs "H")) with [FByte KMethod 72].
      tests; rewrite <- ?app_assoc; reflexivity. }
  apply N.eqb_eq in E1. subst a.
  rewrite (aexec_byte _ _ _ (A StDetect3 0 0 0)) by reflexivity. unfold_a.
  rewrite (aexec_byte _ _ _ (A StRequestMethod 0 0 0) _ 84) by reflexivity. unfold_a. ground. cbn_a.
  destruct (b =? 84) eqn:E1; cbn_a; rewrite ?app_nil_r.
  2:{ rewrite (aexec_byte _ _ _ (A StRequestMethod 0 0 0)) by reflexivity. unfold_a.
      change (map (FByte KMethod) (bs "HT")) with [FByte KMethod 72; FByte KMethod 84].
      tests; rewrite <- ?app_assoc; reflexivity. }
  apply N.eqb_eq in E1. subst b.
  rewrite (aexec_byte _ _ _ (A StDetect4 0 0 0)) by reflexivity. unfold_a.
  rewrite (aexec_byte _ _ _ (A StRequestMethod 0 0 0) _ 84) by reflexivity. unfold_a. ground. cbn_a.
  destruct (c =? 80) eqn:E1; cbn_a; rewrite ?app_nil_r.
  2:{ rewrite (aexec_byte _ _ _ (A StRequestMethod 0 0 0)) by reflexivity. unfold_a.
      change (map (FByte KMethod) (bs "HTT")) with [FByte KMethod 72; FByte KMethod 84; FByte KMethod 84].
      tests; rewrite <- ?app_assoc; reflexivity. }
  apply N.eqb_eq in E1. subst c.
  rewrite (aexec_byte _ _ _ (A StDetect5 0 0 0)) by reflexivity. unfold_a.
  rewrite (aexec_byte _ _ _ (A StRequestMethod 0 0 0) _ 80) by reflexivity. unfold_a. ground. cbn_a.
  destruct (d =? 47) eqn:E1; cbn_a; rewrite ?app_nil_r.
  2:{ rewrite (aexec_byte _ _ _ (A StRequestMethod 0 0 0)) by reflexivity. unfold_a.
      change (map (FByte KMethod) (bs "HTTP")) with
        [FByte KMethod 72; FByte KMethod 84; FByte KMethod 84; FByte KMethod 80].
      tests; rewrite <- ?app_assoc; reflexivity. }
  apply N.eqb_eq in E1. subst d. exfalso. now apply (H r).
Qed.

Lemma dok1_H r : dok1 (72 :: r) -> (List.length r < 8)%nat -> cmpb r (bs "TTP/") = true.
Proof. cbv beta iota delta [dok1]. intros [H|H] L; [exfalso; revert H L; apply Nat.le_ngt|exact H]. Qed.


Lemma cmpb_cons x a y b : cmpb (x :: a) (y :: b) = true -> x = y /\ cmpb a b = true.
Proof. cbn [cmpb]. intros H. apply andb_true_iff in H. destruct H as [H1 H2]. now apply N.eqb_eq in H1. Qed.

Ltac detect_n :=
  match goal with D : dok _ (?b :: _) |- _ =>
    cbn [dok] in D; lits;
    let E := fresh "E" in
    apply cmpb_cons in D; destruct D as [E D];
    first [ exact D
          | exfalso; vm_compute in E; subst b;
            match goal with H : (_ =? _) = false |- _ => vm_compute in H; discriminate H end
          | exfalso; vm_compute in E; subst b; tauto ]
  end.

Lemma sim_StDetect2 : simst StDetect2.
Proof. sim_auto; detect_n. Qed.
Lemma sim_StDetect3 : simst StDetect3.
Proof. sim_auto; detect_n. Qed.
Lemma sim_StDetect4 : simst StDetect4.
Proof. sim_auto; detect_n. Qed.
Lemma sim_StDetect5 : simst StDetect5.
Proof. sim_auto; detect_n. Qed.

Lemma strip_skip x r :
  Forall (fun b => Some (negb ((b =? 13) || (b =? 10) || (b =? 9) || (b =? 32))) = Some false) x ->
  strip (x ++ r) = strip r.
Proof.
  induction 1 as [|b x H F IH]; [reflexivity|]. cbn [app strip].
  injection H as H. apply negb_false_iff in H. now rewrite H.
Qed.

Lemma sim_StStripDetect : simst StStripDetect.
Proof.
  sim_auto. split; [discriminate|]. cbn [dok] in D. rewrite strip_skip in D by assumption.
  cbn [strip] in D. apply negb_true_iff in H1. now rewrite H1 in D.
Qed.

Lemma sim_StDetect1 : simst StDetect1.
Proof.
  sim_auto.
  all: cbn [skipn flat flat_map flat1 app].
  all: try (exfalso; boolP; unfold byte in *; cbn [List.length] in *; lia).
  all: try (destruct D as [D _]; exfalso; destruct r; [congruence|cbn in *; lia]).
  all: try (repeat byte_lit; rewrite <- ?app_assoc; reflexivity).
  all: try match goal with
  | |- aexec _ _ _ _ _ (72 :: _) = _ =>
      byte_lit; apply detect_H;
      [ boolP; unfold byte in *; cbn [List.length] in *; lia
      | match goal with H : forall r', 72 :: _ <> [72; 84; 84; 80; 47] ++ r' |- _ =>
          intros y E; apply (H y); now rewrite E end ]
  end.
  all: try match goal with
  | H : forall r', ?b :: _ <> [72] ++ r' |- aexec _ _ _ _ _ (?b :: ?r) = _ =>
      let N := fresh in assert (N : b <> 72) by (intros ->; now apply (H r));
      apply N.eqb_neq in N; bytes1; close_leaf
  end.
  - destruct D as [_ D]. apply dok1_H; [exact D|]. boolP. unfold byte in *. cbn [List.length] in *. lia.
Qed.

Lemma bound_mismatch : forall s r : list byte,
  (forall r', r <> s ++ r') -> (List.length s <= List.length r)%nat ->
  exists x c s' b r', s = x ++ c :: s' /\ r = x ++ b :: r' /\ b <> c.
Proof.
  induction s as [|c s IH]; intros r H L.
  - exfalso. now apply (H r).
  - destruct r as [|b r]; cbn [List.length] in L; [lia|].
    destruct (N.eq_dec b c) as [->|NE].
    + destruct (IH r) as (x & c' & s' & b & r' & -> & -> & NE).
      * intros r' ->. now apply (H r').
      * lia.
      * now exists (c :: x), c', s', b, r'.
    + now exists [], c, s, b, r.
Qed.

Lemma skipn_cons_nth (l : list byte) : forall n x s,
  skipn n l = x :: s -> nth_error l n = Some x /\ skipn (S n) l = s /\ (n < List.length l)%nat.
Proof.
  induction l as [|y l IH]; intros [|n] x s H; cbn [skipn] in H; try discriminate.
  - injection H as -> ->. cbn. repeat split. lia.
  - destruct (IH _ _ _ H) as (A1 & A2 & A3). cbn [nth_error List.length]. repeat split; auto. lia.
Qed.

Lemma skipn_plus (l : list byte) : forall n m, skipn m (skipn n l) = skipn (m + n) l.
Proof.
  induction l as [|y l IH]; intros n m; [now rewrite !skipn_nil|].
  destruct n as [|n]; [now rewrite Nat.add_0_r|]. cbn [skipn]. rewrite IH, Nat.add_succ_r. reflexivity.
Qed.

(* Bytes that agree with the boundary. *)
Lemma boundary_match bd lo len x : forall up l r c s,
  skipn (N.to_nat up) bd = x ++ c :: s ->
  aexec Multipart (Some bd) clen (A StMultipartBoundary lo up len) l (x ++ r) =
  aexec Multipart (Some bd) clen (A StMultipartBoundary lo (up + N.of_nat (List.length x)) len) l r.
Proof.
  induction x as [|b x IH]; intros up l r c s H; cbn [app List.length].
  - now rewrite N.add_0_r.
  - destruct (skipn_cons_nth _ _ _ _ H) as (H1 & H2 & H3).
    rewrite aexec_byte by reflexivity. unfold abyte, abyte_raw. cbn [a_st]. unfold a_boundary.
    cbn [a_up]. rewrite H1, N.eqb_refl.
    destruct (Nat.eqb_spec (S (N.to_nat up)) (List.length bd)) as [E|E].
    { exfalso. rewrite E, skipn_all in H2. now destruct x. }
    unfold st_up. cbn_a. rewrite app_nil_r. replace (S (N.to_nat up)) with (N.to_nat (up + 1)) in H2 by lia.
    rewrite (IH _ l r c s) by assumption.
    f_equal. f_equal. lia.
Qed.

Lemma boundary_full bd lo len l r up x : x <> [] ->
  skipn (N.to_nat up) bd = x ->
  aexec Multipart (Some bd) clen (A StMultipartBoundary lo up len) l (x ++ r) =
  aexec Multipart (Some bd) clen (A StMultipartBoundaryCr lo 0 len) l r.
Proof.
  intros NE H. destruct (exists_last NE) as (x' & b & ->).
  rewrite <- app_assoc. rewrite (boundary_match _ _ _ _ _ _ _ _ _ H).
  cbn [app]. rewrite aexec_byte by reflexivity. unfold abyte, abyte_raw. cbn [a_st]. unfold a_boundary.
  cbn [a_up].
  assert (H1 : skipn (N.to_nat (up + N.of_nat (List.length x'))) bd = [b]).
  { replace (N.to_nat (up + N.of_nat (List.length x'))) with (List.length x' + N.to_nat up)%nat by lia.
    rewrite <- (skipn_plus bd (N.to_nat up)), H.
    rewrite skipn_app, skipn_all, Nat.sub_diag. reflexivity. }
  destruct (skipn_cons_nth _ _ _ _ H1) as (H2 & H3 & H4). rewrite H2, N.eqb_refl.
  destruct (Nat.eqb_spec (S (N.to_nat (up + N.of_nat (List.length x')))) (List.length bd)) as [E|E].
  - unfold st_up. cbn_a. now rewrite app_nil_r.
  - exfalso. apply (f_equal (@List.length _)) in H3. rewrite skipn_length in H3. cbn [List.length] in H3. lia.
Qed.

Lemma firstn_app_skipn (bd x : list byte) c s up :
  skipn up bd = x ++ c :: s -> firstn (up + List.length x) bd = firstn up bd ++ x.
Proof.
  intros H. rewrite <- (firstn_skipn up bd) at 1. rewrite H.
  assert (up <= List.length bd)%nat.
  { destruct (Nat.le_gt_cases up (List.length bd)); [assumption|].
    rewrite skipn_all2 in H by lia. now destruct x. }
  rewrite firstn_app. rewrite firstn_length, Nat.min_l by lia.
  rewrite firstn_all2 by (rewrite firstn_length; lia).
  replace (up + List.length x - up)%nat with (List.length x) by lia.
  rewrite firstn_app, Nat.sub_diag, firstn_all. cbn [firstn]. now rewrite app_nil_r.
Qed.

Lemma in_skipn (x : byte) n l : In x (skipn n l) -> In x l.
Proof. intros H. rewrite <- (firstn_skipn n l). apply in_or_app. now right. Qed.


Lemma bd_slice (bd r : list byte) up :
  exists s2, skipn up bd =
    (if (List.length bd - up <=? List.length r)%nat then skipn up bd
     else firstn (List.length r) (skipn up bd)) ++ s2 /\
    (List.length (if (List.length bd - up <=? List.length r)%nat then skipn up bd
     else firstn (List.length r) (skipn up bd)) <= List.length r)%nat.
Proof.
  destruct (Nat.leb_spec (List.length bd - up) (List.length r)) as [L|L].
  - exists []. rewrite app_nil_r, skipn_length. auto.
  - exists (skipn (List.length r) (skipn up bd)). rewrite firstn_skipn, firstn_length. split; [reflexivity|lia].
Qed.

(* Bytes of data that are not CR. *)
Lemma by_byte_data bd lo up len (x : list byte) : forall l r, ~ In 13 x ->
  aexec Multipart bd clen (A StMultipartDataByByte lo up len) l (x ++ r) =
  aexec Multipart bd clen (A StMultipartDataByByte lo up len) (l ++ map (FByte KMultipartData) x) r.
Proof.
  induction x as [|b x IH]; intros l r H; cbn [app map].
  - now rewrite app_nil_r.
  - rewrite aexec_byte by reflexivity. unfold_a.
    destruct (b =? 13) eqn:E; [apply N.eqb_eq in E; subst b; now destruct H; left|].
    cbn_a. rewrite IH by (intros I; apply H; now right). now rewrite <- app_assoc.
Qed.

Lemma boundary_mismatch (bd : list byte) len l (r : list byte) up (s s2 : list byte) : ~ In 13 bd ->
  skipn (N.to_nat up) bd = s ++ s2 ->
  (forall r', r <> s ++ r') -> (List.length s <= List.length r)%nat ->
  aexec Multipart (Some bd) clen (A StMultipartBoundary 0 up len) l r =
  aexec Multipart (Some bd) clen (A StMultipartDataByByte 0 0 len)
    (l ++ map (FByte KMultipartData) ([13; 10; 45; 45] ++ firstn (N.to_nat up) bd)) r.
Proof.
  intros B H H1 L. destruct (bound_mismatch _ _ H1 L) as (x & c & s' & b & r' & -> & -> & NE).
  assert (I : ~ In 13 x).
  { intros I. apply B, (in_skipn 13 (N.to_nat up) bd). rewrite H. apply in_or_app. left. apply in_or_app. now left. }
  rewrite <- app_assoc in H. cbn [app] in H.
  rewrite (boundary_match _ _ _ _ _ _ _ _ _ H).
  rewrite by_byte_data by assumption.
  rewrite !(aexec_byte _ _ _ _ _ b) by reflexivity. unfold abyte, abyte_raw. cbn [a_st]. unfold a_boundary.
  cbn [a_up].
  assert (H2 : skipn (N.to_nat (up + N.of_nat (List.length x))) bd = c :: s' ++ s2).
  { replace (N.to_nat (up + N.of_nat (List.length x))) with (List.length x + N.to_nat up)%nat by lia.
    rewrite <- (skipn_plus bd (N.to_nat up)), H.
    rewrite skipn_app, skipn_all, Nat.sub_diag. reflexivity. }
  destruct (skipn_cons_nth _ _ _ _ H2) as (H3 & _ & _). rewrite H3.
  apply N.eqb_neq in NE. rewrite NE. cbn [a_lo]. change (0 =? 0) with true. cbv iota.
  replace (N.to_nat (up + N.of_nat (List.length x))) with (N.to_nat up + List.length x)%nat by lia.
  rewrite (firstn_app_skipn _ _ _ _ _ H). unfold st_up. cbn [a_st a_lo a_up a_len].
  unfold a_by_byte. cbn [a_st a_lo a_up a_len].
  destruct (b =? 13); cbn_a; rewrite ?map_app, <- ?app_assoc; cbn [app map]; rewrite <- ?app_assoc, ?app_nil_r; reflexivity.
Qed.

Lemma boundary_error (bd : list byte) lo len l (r : list byte) up (s s2 : list byte) : lo <> 0 ->
  skipn (N.to_nat up) bd = s ++ s2 ->
  (forall r', r <> s ++ r') -> (List.length s <= List.length r)%nat ->
  exists b y, aexec Multipart (Some bd) clen (A StMultipartBoundary lo up len) l r =
  AFail l (ErMultipartBoundary b) y /\ (List.length y < List.length r <= List.length y + List.length bd)%nat.
Proof.
  intros B H H1 L. destruct (bound_mismatch _ _ H1 L) as (x & c & s' & b & r' & -> & -> & NE).
  rewrite <- app_assoc in H. cbn [app] in H. exists b, r'. split.
  2:{ apply (f_equal (@List.length _)) in H. rewrite skipn_length, app_length in H.
      rewrite app_length. cbn [List.length] in *. lia. }
  rewrite (boundary_match _ _ _ _ _ _ _ _ _ H).
  rewrite !(aexec_byte _ _ _ _ _ b) by reflexivity. unfold abyte, abyte_raw. cbn [a_st]. unfold a_boundary.
  cbn [a_up].
  assert (H2 : skipn (N.to_nat (up + N.of_nat (List.length x))) bd = c :: s' ++ s2).
  { replace (N.to_nat (up + N.of_nat (List.length x))) with (List.length x + N.to_nat up)%nat by lia.
    rewrite <- (skipn_plus bd (N.to_nat up)), H.
    rewrite skipn_app, skipn_all, Nat.sub_diag. reflexivity. }
  destruct (skipn_cons_nth _ _ _ _ H2) as (H3 & _ & _). rewrite H3.
  apply N.eqb_neq in NE. rewrite NE. cbn [a_lo]. apply N.eqb_neq in B. rewrite B. now rewrite app_nil_r.
Qed.

Lemma sim_StMultipartBoundary : simst StMultipartBoundary.
Proof.
  sim_start; stopP; sim_leaf; rewrite ?Heqo in *.
  all: try exact B.
  all: try (specialize (B eq_refl); destruct B as [B1 B2]).
  all: clear Hclen D.
  all: pose proof (upper_lt p) as UL.
  all: try match goal with
    | _ : boundary ?p = Some ?bd, _ : (List.length ?r =? 0)%nat = false |- _ =>
      destruct (bd_slice bd r (N.to_nat (get_upper14 p))) as (s2 & E2 & L2);
      set (s := if (List.length bd - N.to_nat (get_upper14 p) <=? List.length r)%nat
                then skipn (N.to_nat (get_upper14 p)) bd else _) in *; clearbody s;
      assert (L3 := f_equal (@List.length _) E2); rewrite skipn_length, app_length in L3
    end.
  all: boolP.
  - destruct r as [|b r]; [now destruct H|]. eexists. split; [|apply nearly_refl].
    rewrite aexec_byte by reflexivity. unfold abyte, abyte_raw. cbn [a_st]. unfold a_boundary. cbn [a_up].
    rewrite (proj2 (nth_error_None _ _)) by lia.
    destruct (Nat.eqb_spec (List.length l0) (N.to_nat (get_upper14 p))); [lia|reflexivity].
  - lia.
  - change (0 mod 2 ^ 14) with 0. 
    destruct s2; [|cbn [List.length] in *; lia]. rewrite app_nil_r in E2.
    destruct s as [|c s].
    + cbn [List.length skipn]. destruct r as [|b r]; [now destruct H|].
      rewrite !aexec_byte by reflexivity. unfold abyte, abyte_raw. cbn [a_st]. unfold a_boundary. cbn [a_up].
      rewrite (proj2 (nth_error_None _ _)) by (cbn [List.length] in *; lia).
      destruct (Nat.eqb_spec (List.length l0) (N.to_nat (get_upper14 p))); [reflexivity|cbn [List.length] in *; lia].
    + rewrite E at 1. rewrite (boundary_full _ _ _ _ _ _ (c :: s)); [|discriminate|assumption].
      rewrite E, skipn_app, skipn_all, Nat.sub_diag. reflexivity.
  - destruct s2 as [|c s2]; [rewrite app_nil_r in *; cbn [List.length] in *; lia|].
    rewrite E at 1. rewrite (boundary_match _ _ _ _ _ _ _ _ _ E2).
    rewrite m14_small by lia.
    rewrite E, skipn_app, skipn_all, Nat.sub_diag. reflexivity.
  - change (0 mod 2 ^ 14) with 0. apply N.eqb_eq in H3. rewrite H3.
    now apply (boundary_mismatch _ _ _ _ _ s s2).
  - change (0 mod 2 ^ 14) with 0. apply N.eqb_eq in H3. rewrite H3.
    now apply (boundary_mismatch _ _ _ _ _ s s2).
  - apply N.eqb_neq in H3.
    destruct (boundary_error l0 _ (plength p) (flat l) (b :: r') (get_upper14 p) s s2 H3) as (b' & y & E & Ly); try assumption.
    eexists _, (ErMultipartBoundary b'), y. split; [exact E|split; [exact I|split; [apply nearly_refl|]]].
    unfold placed, blen. cbn [mp]. rewrite Heqo. cbn [List.length] in *. lia.
  - destruct r as [|b r]; [now destruct H|]. eexists. split; [|apply nearly_refl].
    now rewrite aexec_byte by reflexivity.
Qed.
(* The remaining states. *)
Lemma sim_StRequestMethod : simst StRequestMethod.
Proof. sim_auto. Qed.
Lemma sim_StRequestUrl1 : simst StRequestUrl1.
Proof. sim_auto. Qed.
Lemma sim_StRequestUrl2 : simst StRequestUrl2.
Proof. sim_auto. Qed.
Lemma sim_StRequestHttp2 : simst StRequestHttp2.
Proof. sim_auto. Qed.
Lemma sim_StRequestHttp3 : simst StRequestHttp3.
Proof. sim_auto. Qed.
Lemma sim_StRequestHttp4 : simst StRequestHttp4.
Proof. sim_auto. Qed.
Lemma sim_StRequestHttp5 : simst StRequestHttp5.
Proof. sim_auto. Qed.
Lemma sim_StRequestVersionMajor2 : simst StRequestVersionMajor2.
Proof. sim_auto. Qed.
Lemma sim_StRequestVersionMajor3 : simst StRequestVersionMajor3.
Proof. sim_auto. Qed.
Lemma sim_StRequestVersionPeriod : simst StRequestVersionPeriod.
Proof. sim_auto. Qed.
Lemma sim_StRequestVersionMinor2 : simst StRequestVersionMinor2.
Proof. sim_auto. Qed.
Lemma sim_StRequestVersionMinor3 : simst StRequestVersionMinor3.
Proof. sim_auto. Qed.
Lemma sim_StRequestVersionCr : simst StRequestVersionCr.
Proof. sim_auto. Qed.
Lemma sim_StResponseVersionMajor2 : simst StResponseVersionMajor2.
Proof. sim_auto. Qed.
Lemma sim_StResponseVersionMajor3 : simst StResponseVersionMajor3.
Proof. sim_auto. Qed.
Lemma sim_StResponseVersionPeriod : simst StResponseVersionPeriod.
Proof. sim_auto. Qed.
Lemma sim_StResponseVersionMinor2 : simst StResponseVersionMinor2.
Proof. sim_auto. Qed.
Lemma sim_StResponseVersionMinor3 : simst StResponseVersionMinor3.
Proof. sim_auto. Qed.
Lemma sim_StResponseVersionSpace : simst StResponseVersionSpace.
Proof. sim_auto. Qed.
Lemma sim_StResponseStatusCode2 : simst StResponseStatusCode2.
Proof. sim_auto. Qed.
Lemma sim_StResponseStatusCodeSpace : simst StResponseStatusCodeSpace.
Proof. sim_auto. Qed.
Lemma sim_StResponseStatus1 : simst StResponseStatus1.
Proof. sim_auto. Qed.
Lemma sim_StResponseStatus2 : simst StResponseStatus2.
Proof. sim_auto. Qed.
Lemma sim_StInitialEnd : simst StInitialEnd.
Proof. sim_auto. Qed.
Lemma sim_StInitialLf : simst StInitialLf.
Proof. sim_auto. Qed.
Lemma sim_StCheckHeaderName : simst StCheckHeaderName.
Proof. sim_auto. Qed.
Lemma sim_StLowerHeaderName : simst StLowerHeaderName.
Proof. sim_auto. Qed.
Lemma sim_StStripHeaderValue : simst StStripHeaderValue.
Proof. sim_auto. Qed.
Lemma sim_StHeaderValue : simst StHeaderValue.
Proof. sim_auto. Qed.
Lemma sim_StHeaderQuotedValue : simst StHeaderQuotedValue.
Proof. sim_auto. Qed.
Lemma sim_StHeaderEscapedValue : simst StHeaderEscapedValue.
Proof. sim_auto. Qed.
Lemma sim_StHeaderCr1 : simst StHeaderCr1.
Proof. sim_auto. Qed.
Lemma sim_StHeaderLf1 : simst StHeaderLf1.
Proof. sim_auto. Qed.
Lemma sim_StHeaderLf2 : simst StHeaderLf2.
Proof. sim_auto. Qed.
Lemma sim_StHeaderEnd : simst StHeaderEnd.
Proof. sim_auto. Qed.
Lemma sim_StChunkLength1 : simst StChunkLength1.
Proof. sim_auto. Qed.
Lemma sim_StChunkLength2 : simst StChunkLength2.
Proof. sim_auto. Qed.
Lemma sim_StChunkLength3 : simst StChunkLength3.
Proof. sim_auto. Qed.
Lemma sim_StChunkLength4 : simst StChunkLength4.
Proof. sim_auto. Qed.
Lemma sim_StChunkLength5 : simst StChunkLength5.
Proof. sim_auto. Qed.
Lemma sim_StChunkLength6 : simst StChunkLength6.
Proof. sim_auto. Qed.
Lemma sim_StChunkLength7 : simst StChunkLength7.
Proof. sim_auto. Qed.
Lemma sim_StChunkLength8 : simst StChunkLength8.
Proof. sim_auto. Qed.
Lemma sim_StChunkLengthCr : simst StChunkLengthCr.
Proof. sim_auto. Qed.
Lemma sim_StStripChunkExtensionName : simst StStripChunkExtensionName.
Proof. sim_auto. Qed.
Lemma sim_StLowerChunkExtensionName : simst StLowerChunkExtensionName.
Proof. sim_auto. Qed.
Lemma sim_StStripChunkExtensionValue : simst StStripChunkExtensionValue.
Proof. sim_auto. Qed.
Lemma sim_StChunkExtensionValue : simst StChunkExtensionValue.
Proof. sim_auto. Qed.
Lemma sim_StChunkExtensionQuotedValue : simst StChunkExtensionQuotedValue.
Proof. sim_auto. Qed.
Lemma sim_StChunkExtensionEscapedValue : simst StChunkExtensionEscapedValue.
Proof. sim_auto. Qed.
Lemma sim_StChunkExtensionsFinished : simst StChunkExtensionsFinished.
Proof. sim_auto. Qed.
Lemma sim_StChunkLengthLf : simst StChunkLengthLf.
Proof. sim_auto. Qed.
Lemma sim_StChunkDataCr : simst StChunkDataCr.
Proof. sim_auto. Qed.
Lemma sim_StChunkDataLf : simst StChunkDataLf.
Proof. sim_auto. Qed.
Lemma sim_StMultipartHyphen1 : simst StMultipartHyphen1.
Proof. sim_auto. Qed.
Lemma sim_StMultipartHyphen2 : simst StMultipartHyphen2.
Proof. sim_auto. Qed.
Lemma sim_StMultipartDataByByte : simst StMultipartDataByByte.
Proof. sim_auto. Qed.
Lemma sim_StMultipartDataByLengthCr : simst StMultipartDataByLengthCr.
Proof. sim_auto. Qed.
Lemma sim_StMultipartDataByLengthLf : simst StMultipartDataByLengthLf.
Proof. sim_auto. Qed.
Lemma sim_StMultipartDataByByteLf : simst StMultipartDataByByteLf.
Proof. sim_auto. Qed.
Lemma sim_StMultipartBoundaryCr : simst StMultipartBoundaryCr.
Proof. sim_auto. Qed.
Lemma sim_StMultipartBoundaryLf : simst StMultipartBoundaryLf.
Proof. sim_auto. Qed.
Lemma sim_StMultipartEnd : simst StMultipartEnd.
Proof. sim_auto. Qed.
Lemma sim_StUrlEncodedName : simst StUrlEncodedName.
Proof. sim_auto. Qed.
Lemma sim_StUrlEncodedNamePlus : simst StUrlEncodedNamePlus.
Proof. sim_auto. Qed.
Lemma sim_StUrlEncodedValue : simst StUrlEncodedValue.
Proof. sim_auto. Qed.
Lemma sim_StUrlEncodedValuePlus : simst StUrlEncodedValuePlus.
Proof. sim_auto. Qed.
Lemma sim_StBodyFinished : simst StBodyFinished.
Proof. sim_auto. Qed.
Lemma sim_StFinished : simst StFinished.
Proof. sim_auto. Qed.

(* One run of a state function agrees with the automaton. *)
Lemma run_fn_sim m : inv m -> wp (run_fn h m) (sim_post clen m).
Proof.
  intros I. destruct (state_fn (mp m)) eqn:E; revert m E I.
  - exact sim_StDead.
  - exact sim_StStripDetect.
  - exact sim_StDetect1.
  - exact sim_StDetect2.
  - exact sim_StDetect3.
  - exact sim_StDetect4.
  - exact sim_StDetect5.
  - exact sim_StRequestMethod.
  - exact sim_StRequestUrl1.
  - exact sim_StRequestUrl2.
  - exact sim_StRequestHttp1.
  - exact sim_StRequestHttp2.
  - exact sim_StRequestHttp3.
  - exact sim_StRequestHttp4.
  - exact sim_StRequestHttp5.
  - exact sim_StRequestVersionMajor1.
  - exact sim_StRequestVersionMajor2.
  - exact sim_StRequestVersionMajor3.
  - exact sim_StRequestVersionPeriod.
  - exact sim_StRequestVersionMinor1.
  - exact sim_StRequestVersionMinor2.
  - exact sim_StRequestVersionMinor3.
  - exact sim_StRequestVersionCr.
  - exact sim_StResponseVersionMajor1.
  - exact sim_StResponseVersionMajor2.
  - exact sim_StResponseVersionMajor3.
  - exact sim_StResponseVersionPeriod.
  - exact sim_StResponseVersionMinor1.
  - exact sim_StResponseVersionMinor2.
  - exact sim_StResponseVersionMinor3.
  - exact sim_StResponseVersionSpace.
  - exact sim_StResponseStatusCode1.
  - exact sim_StResponseStatusCode2.
  - exact sim_StResponseStatusCode3.
  - exact sim_StResponseStatusCodeSpace.
  - exact sim_StResponseStatus1.
  - exact sim_StResponseStatus2.
  - exact sim_StInitialEnd.
  - exact sim_StInitialLf.
  - exact sim_StCheckHeaderName.
  - exact sim_StFirstHeaderName.
  - exact sim_StUpperHeaderName.
  - exact sim_StLowerHeaderName.
  - exact sim_StStripHeaderValue.
  - exact sim_StHeaderValue.
  - exact sim_StHeaderQuotedValue.
  - exact sim_StHeaderEscapedValue.
  - exact sim_StHeaderCr1.
  - exact sim_StHeaderLf1.
  - exact sim_StHeaderCr2.
  - exact sim_StHeaderLf2.
  - exact sim_StHeaderEnd.
  - exact sim_StChunkLength1.
  - exact sim_StChunkLength2.
  - exact sim_StChunkLength3.
  - exact sim_StChunkLength4.
  - exact sim_StChunkLength5.
  - exact sim_StChunkLength6.
  - exact sim_StChunkLength7.
  - exact sim_StChunkLength8.
  - exact sim_StChunkLengthCr.
  - exact sim_StStripChunkExtensionName.
  - exact sim_StUpperChunkExtensionName.
  - exact sim_StLowerChunkExtensionName.
  - exact sim_StStripChunkExtensionValue.
  - exact sim_StChunkExtensionValue.
  - exact sim_StChunkExtensionQuotedValue.
  - exact sim_StChunkExtensionEscapedValue.
  - exact sim_StChunkExtensionFinished.
  - exact sim_StChunkExtensionsFinished.
  - exact sim_StChunkLengthLf.
  - exact sim_StChunkData.
  - exact sim_StChunkDataCr.
  - exact sim_StChunkDataLf.
  - exact sim_StMultipartHyphen1.
  - exact sim_StMultipartHyphen2.
  - exact sim_StMultipartBoundary.
  - exact sim_StMultipartDetectData.
  - exact sim_StMultipartDataByByte.
  - exact sim_StMultipartDataByLength.
  - exact sim_StMultipartDataByLengthCr.
  - exact sim_StMultipartDataByLengthLf.
  - exact sim_StMultipartDataByByteLf.
  - exact sim_StMultipartBoundaryCr.
  - exact sim_StMultipartBoundaryLf.
  - exact sim_StMultipartEnd.
  - exact sim_StFirstUrlEncodedName.
  - exact sim_StUrlEncodedName.
  - exact sim_StUrlEncodedNameHex1.
  - exact sim_StUrlEncodedNameHex2.
  - exact sim_StUrlEncodedNamePlus.
  - exact sim_StUrlEncodedValue.
  - exact sim_StUrlEncodedValueHex1.
  - exact sim_StUrlEncodedValueHex2.
  - exact sim_StUrlEncodedValuePlus.
  - exact sim_StBodyFinished.
  - exact sim_StFinished.
Qed.
End Step2.
