(* How the data of the calls are cut out of a piece: proofs. *)

From Coq Require Import NArith List Bool Arith String Lia ZifyBool.
From Verif Require Import Bytes ByteStream Http1Model Http1Base Http1Wp Http1Term Http1Spec
  Http1Protocol Http1Sem Http1Sim Http1Step Http1Misc Http1Data Http1Run Http1Client Http1Api Http1Pieces.
Import ListNotations.
Local Open Scope N_scope.

(* ------------------------------------------------------------------ *)
(* One step                                                             *)
(* ------------------------------------------------------------------ *)

(* What has not been reported or skipped. *)
Definition left_of (m : mach) : list byte := cslice (mc m) ++ crest (mc m).

(* x is reported as d; names in lower case are as they are, see data_post. *)
Definition rd (bd : option (list byte)) (k : dkind) (x d : list byte) : Prop :=
  read_as bd k x d \/ x = d.

Definition cut_post (m m' : mach) (o : outcome) : Prop :=
  exists x, ml m' = ml m ++ x /\
  match x with
  | [] => o = Continue -> suf (left_of m) (left_of m')
  | [e] =>
      (o = Continue -> cslice (mc m') = []) /\
      match e with
      | EData k d => exists a y b, left_of m = a ++ y ++ b /\ rd (boundary (mp m)) k y d /\ suf b (crest (mc m'))
      | _ => suf (left_of m) (crest (mc m'))
      end
  | _ => False
  end.

Lemma cut_silent m p c o : (o = Continue -> suf (left_of m) (cslice c ++ crest c)) -> cut_post m (Mach p c (ml m)) o.
Proof. intros H. exists []. split; [now rewrite app_nil_r|exact H]. Qed.

Lemma cut_event m p c e o : (o = Continue -> cslice c = []) ->
  match e with
  | EData k d => exists a y b, left_of m = a ++ y ++ b /\ rd (boundary (mp m)) k y d /\ suf b (crest c)
  | _ => suf (left_of m) (crest c)
  end -> cut_post m (Mach p c (ml m ++ [e])) o.
Proof. intros H1 H2. exists [e]. split; [reflexivity|]. now split. Qed.

Lemma suf_l x a b : suf a b -> suf (x ++ a) b.
Proof. intros [y ->]. exists (x ++ y). now rewrite app_assoc. Qed.

(* The slice itself. *)
Lemma cut_slice (l d r : list byte) bd k c : l = d ++ r -> suf r c ->
  exists a y b, l = a ++ y ++ b /\ rd bd k y d /\ suf b c.
Proof. intros -> S. exists [], d, r. repeat split; [now right|exact S]. Qed.

Lemma cut_byte b (r d : list byte) bd k c : rd bd k [b] d -> suf r c ->
  exists a y x, b :: r = a ++ y ++ x /\ rd bd k y d /\ suf x c.
Proof. intros R S. exists [], [b], r. repeat split; assumption. Qed.

Lemma rd_upper bd k b : is_upper b = true -> Http1Pieces.is_name k = true -> rd bd k [b] [b + 32].
Proof.
  intros U K. left. change [b] with ([b] : list byte).
  replace [b + 32] with (map small [b]); [now apply read_name|].
  unfold is_upper in U. cbn [map]. unfold small.
  replace ((65 <=? b) && (b <=? 90)) with true by lia. reflexivity.
Qed.

Lemma rd_delim (t d : list byte) bd y b : y = [b] -> d = t ++ [b] ->
  (exists t', [13; 10; 45; 45] ++ match bd with Some b => b | None => [] end = t ++ t') -> rd bd KMultipartData y d.
Proof. intros -> -> [t' E]. left. apply read_delimiter with t'; [cbn; lia|exact E]. Qed.

Lemma lower_small b : lower b = small b.
Proof.
  unfold lower, small, is_upper, byte in *.
  replace ((65 <=? b) && (b <=? 90)) with ((64 <? b) && (b <? 91)) by lia. reflexivity.
Qed.

Lemma cut_known lit name len (r r' : list byte) bd : In (lit, name, len) all_names -> r = lit ++ r' ->
  exists a y b, r = a ++ y ++ b /\ rd bd KHeaderName y name /\ suf b (skipn len r).
Proof.
  intros I ->. destruct (all_names_spec _ _ _ I) as (b & x & -> & -> & _ & _ & <- & _).
  exists [], (b :: x), ([58] ++ r'). split; [cbn [app]; now rewrite <- app_assoc|]. split.
  - left. replace (map lower (b :: x)) with (map small (b :: x)); [now apply read_name|].
    apply map_ext. intros c. symmetry. apply lower_small.
  - rewrite skipn_app, skipn_all, Nat.sub_diag. cbn [app skipn]. apply suf_cons, suf_refl.
Qed.

Lemma rd_matched bd n : read_as (Some bd) KMultipartData [] (13 :: 10 :: 45 :: 45 :: firstn n bd).
Proof.
  rewrite <- (app_nil_r (13 :: _)). apply read_delimiter with (skipn n bd); [cbn; lia|].
  cbn [app]. now rewrite firstn_skipn.
Qed.

Lemma digit_hex b v : hex_digit b = Some v -> hexadecimal b = true.
Proof.
  unfold hex_digit, is_digit, hexadecimal, byte in *. intros H.
  repeat match type of H with (if ?c then _ else _) = _ => destruct c eqn:? end; try discriminate H; lia.
Qed.

Ltac sufs :=
  rewrite <- ?app_assoc; cbn [app];
  repeat first [ apply suf_refl | apply suf_nil | apply suf_cons | apply suf_skipn | apply suf_app | apply suf_l ].

Lemma run_fn_cut h m : slice_ok (state_fn (mp m)) (cslice (mc m)) -> wp (run_fn h m) (cut_post m).
Proof.
  destruct m as [p [cb mk sl r] l]. unfold run_fn. cbn [mp mc cslice].
  destruct (state_fn p) eqn:Efn; cbv beta delta [slice_ok pkind]; cbv iota beta; intros S.
  all: unfold_state; lits.
  all: try subst sl.
  all: wp_all.
  all: first [ apply (cut_event (Mach _ _ l)); [cbn [cslice]; intros; try reflexivity; discriminate|]
             | apply (cut_silent (Mach _ _ l)); intros; try discriminate ].
  all: unfold left_of; cbn [mc cslice crest mp app].
  all: try solve [sufs].
  all: try (apply cut_slice with (1 := eq_refl); solve [sufs]).
  all: try (match goal with |- exists a y b, ?L = _ /\ rd _ _ y ?D /\ suf b ?c =>
         apply (cut_slice L D (skipn (List.length D) L)); [reflexivity|cbn [skipn List.length]; solve [sufs]] end).
  all: try (eapply cut_slice; [rewrite <- ?app_assoc; cbn [app]; reflexivity|solve [sufs]]).
  all: try (eapply cut_slice; [symmetry; apply app_nil_r|solve [sufs]]).
  all: try (apply cut_slice with (1 := eq_sym (firstn_skipn _ r)); apply suf_refl).
  all: try (apply (cut_byte b r'); [|apply suf_refl];
            first [ apply rd_upper; [assumption|reflexivity]
                  | eapply (rd_delim [13]); [reflexivity|reflexivity|eexists; reflexivity]
                  | eapply (rd_delim [13; 10]); [reflexivity|reflexivity|eexists; reflexivity]
                  | eapply (rd_delim [13; 10; 45]); [reflexivity|reflexivity|eexists; reflexivity]
                  | left; apply read_escape; [reflexivity|eapply digit_hex; eassumption|apply N.mod_lt; discriminate] ]).
  all: try (exists [], [], r; repeat split; [left|apply suf_refl]; first [apply read_plus; reflexivity|idtac]).
  1-2: match goal with I : In _ all_names, E : ?z = (_ ++ _)%list |- _ => eapply cut_known; eassumption end.
  all: match goal with B : boundary _ = Some _ |- _ => rewrite B; apply rd_matched end.
Qed.

(* ------------------------------------------------------------------ *)
(* Items that are not cut                                               *)
(* ------------------------------------------------------------------ *)

(* States from which no data of kind k is reported before something else is. *)
Definition safe (k : dkind) (s : pstate) (r : list byte) : bool :=
  match k with
  | KMethod =>
      match s with
      | StStripDetect | StDetect1 | StDetect2 | StDetect3 | StDetect4 | StDetect5 | StRequestMethod => false
      | _ => true
      end
  | KUrl =>
      match s with
      | StStripDetect | StDetect1 | StDetect2 | StDetect3 | StDetect4 | StDetect5 | StRequestMethod
      | StRequestUrl1 | StRequestUrl2 => false
      | _ => true
      end
  | KStatus =>
      match s with
      | StStripDetect | StDetect1 | StDetect2 | StDetect3 | StDetect4 | StDetect5
      | StResponseVersionMajor1 | StResponseVersionMajor2 | StResponseVersionMajor3 | StResponseVersionPeriod
      | StResponseVersionMinor1 | StResponseVersionMinor2 | StResponseVersionMinor3 | StResponseVersionSpace
      | StResponseStatusCode1 | StResponseStatusCode2 | StResponseStatusCode3 | StResponseStatusCodeSpace
      | StResponseStatus1 | StResponseStatus2 => false
      | _ => true
      end
  | KChunkData =>
      match s with
      | StChunkData => match r with [] => true | _ => false end
      | StChunkDataCr | StChunkDataLf | StChunkLength1 => true
      | _ => false
      end
  | _ => false
  end.

Definition safe_of (k : dkind) (m : mach) : bool := safe k (state_fn (mp m)) (crest (mc m)).

Definition uncut_post (k : dkind) (m m' : mach) (o : outcome) : Prop :=
  exists x, ml m' = ml m ++ x /\
  match x with
  | [] => o = Continue -> safe_of k m = true -> safe_of k m' = true
  | [e] => forall d, e = EData k d -> safe_of k m = false /\ (o = Continue -> safe_of k m' = true)
  | _ => False
  end.

Lemma uncut_silent k m p c o :
  (o = Continue -> safe_of k m = true -> safe k (state_fn p) (crest c) = true) -> uncut_post k m (Mach p c (ml m)) o.
Proof. intros H. exists []. split; [now rewrite app_nil_r|exact H]. Qed.

Lemma uncut_event k m p c e o :
  (forall d, e = EData k d -> safe_of k m = false /\ (o = Continue -> safe k (state_fn p) (crest c) = true)) ->
  uncut_post k m (Mach p c (ml m ++ [e])) o.
Proof. intros H. exists [e]. split; [reflexivity|exact H]. Qed.

Lemma edata_kind k k' d d' : EData k d = EData k' d' -> k' = k.
Proof. now intros [=]. Qed.

Lemma run_fn_uncut k h m : whole k = true -> wp (run_fn h m) (uncut_post k m).
Proof.
  intros W. destruct m as [p [cb mk sl r] l]. unfold run_fn. cbn [mp mc cslice].
  destruct (state_fn p) eqn:Efn.
  all: unfold_state; lits.
  all: wp_all.
  all: match goal with
       | |- uncut_post _ _ (Mach _ _ (?z ++ [_])%list) _ => apply (uncut_event k (Mach _ _ z))
       | |- uncut_post _ _ (Mach _ _ ?z) _ => apply (uncut_silent k (Mach _ _ z))
       end.
  all: clear_big.
  all: intros.
  all: try discriminate.
  all: unfold safe_of in *; cbn [mc mp crest state_fn p_set_state set_lower14 set_upper14 with_bits with_length] in *;
       rewrite ?Efn in *.
  all: try match goal with H : EData _ _ = EData _ _ |- _ => apply edata_kind in H; subst k end.
  all: try (cbn in W; discriminate W).
  all: try (destruct k; try discriminate W; cbn [safe] in *; rewrite ?skipn_all;
            first [discriminate | reflexivity | (split; [reflexivity|intros; first [discriminate | reflexivity]])]).
  all: try (cbn [safe] in *; rewrite ?skipn_all;
            split; [reflexivity|intros; first [discriminate | reflexivity]]).
  all: match goal with H : (List.length ?r =? 0)%nat = false |- _ => destruct r; [discriminate H|clear H] end.
  all: rewrite ?skipn_all; split; [reflexivity|intros; reflexivity].
Qed.
