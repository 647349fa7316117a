(* How much is reported to a handler: proofs. *)

From Coq Require Import NArith List Bool Arith String Lia.
From Verif Require Import Bytes ByteStream Http1Model Http1Base Http1Wp Http1Term Http1Spec Http1Bound
  Http1Sem Http1Sim Http1Step Http1Misc Http1Run Http1Client Http1Api.
Import ListNotations.
Local Open Scope N_scope.

(* ------------------------------------------------------------------ *)
(* One step                                                             *)
(* ------------------------------------------------------------------ *)

(* The calls that may be made in a state beyond one for each byte read. *)
Definition owed (s : pstate) : nat :=
  match s with
  | StInitialEnd | StHeaderLf2 | StMultipartDetectData | StBodyFinished => 1
  | StHeaderEnd => 2
  | StMultipartBoundary => 1
  | StRequestVersionMinor2 | StRequestVersionMinor3 | StRequestVersionCr => 1
  | StChunkLength1 | StChunkLength2 | StChunkLength3 | StChunkLength4 | StChunkLength5 | StChunkLength6
  | StChunkLength7 | StChunkLength8 | StChunkLengthCr
  | StStripChunkExtensionName | StUpperChunkExtensionName | StLowerChunkExtensionName
  | StStripChunkExtensionValue | StChunkExtensionValue | StChunkExtensionQuotedValue
  | StChunkExtensionEscapedValue | StChunkExtensionFinished | StChunkExtensionsFinished => 1
  | StUrlEncodedName | StUrlEncodedNameHex1 | StUrlEncodedNameHex2
  | StUrlEncodedValue | StUrlEncodedValueHex1 | StUrlEncodedValueHex2 => 1
  | StFirstUrlEncodedName | StUrlEncodedNamePlus | StUrlEncodedValuePlus => 2
  | _ => 0
  end.

Definition unread (m : mach) (o : outcome) : nat :=
  List.length (crest (mc m)) + match o with Continue => List.length (cslice (mc m)) | _ => 0 end.

Definition bound_post (m m' : mach) (o : outcome) : Prop :=
  exists x, ml m' = ml m ++ x /\
  (List.length x + unread m' o + match o with Fail _ | Faulted _ => 0 | _ => owed (state_fn (mp m')) end
   <= unread m Continue + owed (state_fn (mp m)))%nat.

Lemma bound_silent m p c o :
  (unread (Mach p c (ml m)) o + match o with Fail _ | Faulted _ => 0 | _ => owed (state_fn p) end
   <= unread m Continue + owed (state_fn (mp m)))%nat -> bound_post m (Mach p c (ml m)) o.
Proof. intros H. exists []. split; [now rewrite app_nil_r|exact H]. Qed.

Lemma bound_event m p c e o :
  (1 + unread (Mach p c (ml m)) o + match o with Fail _ | Faulted _ => 0 | _ => owed (state_fn p) end
   <= unread m Continue + owed (state_fn (mp m)))%nat -> bound_post m (Mach p c (ml m ++ [e])) o.
Proof. intros H. exists [e]. split; [reflexivity|exact H]. Qed.

Lemma nonempty {X} (l : list X) : l <> [] -> (1 <= List.length l)%nat.
Proof. destruct l; [congruence|cbn; lia]. Qed.

Lemma run_fn_bound h m : wp (run_fn h m) (bound_post m).
Proof.
  destruct m as [p [cb mk sl r] l]. unfold run_fn. cbn [mp mc cslice].
  destruct (state_fn p) eqn:Efn.
  all: unfold_state; lits.
  all: wp_all.
  all: match goal with
       | |- bound_post _ (Mach _ _ (?z ++ [_])%list) _ => apply (bound_event (Mach _ _ z))
       | |- bound_post _ (Mach _ _ ?z) _ => apply (bound_silent (Mach _ _ z))
       end.
  all: repeat match goal with H : ?d <> [] |- _ => apply nonempty in H end.
  all: unfold unread; cbn [mc mp crest cslice state_fn p_set_state set_lower14 set_upper14 with_bits with_length] in *;
       rewrite ?Efn in *; cbn [owed].
  all: rewrite ?app_length, ?skipn_length, ?firstn_length in *; cbn [List.length] in *.
  all: try lia.
  1-2: destruct (all_names_spec _ _ _ H) as (b & x & -> & -> & _); subst r; rewrite ?app_length; cbn [List.length]; lia.
  1-2: destruct (parser_type p); cbn [owed]; lia.
  1-2: destruct (_ =? _); cbn [owed]; lia.
Qed.

(* Bytes that have been read and may have to be reported later. *)
Definition pend (p : parser) : nat :=
  match state_fn p with
  | StUrlEncodedNamePlus | StUrlEncodedValuePlus | StMultipartDataByByteLf => 1
  | StMultipartHyphen1 => if get_lower14 p =? 0 then 2 else 0
  | StMultipartHyphen2 => if get_lower14 p =? 0 then 3 else 0
  | StMultipartBoundary => if get_lower14 p =? 0 then 4 + N.to_nat (get_upper14 p) else 0
  | _ => 0
  end.

Definition by_length (s : pstate) : bool :=
  match s with
  | StMultipartDataByLength | StMultipartDataByLengthCr | StMultipartDataByLengthLf => true
  | _ => false
  end.

(* Only the comparison with a boundary uses the upper field in a multipart body;
   data of a given length are followed by a boundary. *)
Definition upper_ok (p : parser) : Prop :=
  parser_type p = Multipart ->
  (state_fn p = StMultipartBoundary \/ state_fn p = StDead \/ get_upper14 p = 0) /\ (by_length (state_fn p) = true -> get_lower14 p <> 0).

Definition upper_post (m m' : mach) (o : outcome) : Prop := upper_ok (mp m').

Lemma run_fn_upper h m : vstate (parser_type (mp m)) (state_fn (mp m)) = true ->
  upper_ok (mp m) -> wp (run_fn h m) (upper_post m).
Proof.
  destruct m as [p [cb mk sl r] l]. unfold run_fn, upper_ok. cbn [mp mc cslice].
  intros V U. destruct (parser_type p) eqn:T.
  1,2,4: pose proof (run_fn_misc h (Mach p (Ctx cb mk sl r) l)) as M; unfold wp in *; apply mi_type in M; cbn [mp] in M;
     unfold upper_post, upper_ok; intros X; exfalso; unfold run_fn in M; cbn [mp] in M; congruence.
  destruct (state_fn p) eqn:Efn; try discriminate V.
  all: destruct (U eq_refl) as [U1 U2]; clear U.
  all: assert (U' : state_fn p = StMultipartBoundary \/ state_fn p = StDead \/ get_upper14 p = 0) by (rewrite Efn; exact U1); clear U1.
  all: unfold_state; lits.
  all: wp_all.
  all: unfold upper_post, upper_ok; cbn [mp parser_type p_set_state with_length set_upper14 set_lower14 with_bits state_fn]; intros _.
  all: split; [|try (rewrite ?Efn in *; exact U2); try (cbn [by_length]; discriminate)].
  all: try (right; left; exact Efn).
  all: try (destruct U' as [U'|[U'|U']]; [exfalso; congruence|exfalso; congruence|right; right; exact U']).
  all: try (left; reflexivity).
  all: try (left; exact Efn).
  all: try (intros _; match goal with |- get_lower14 (p_set_state ?q ?s) <> 0 => change (get_lower14 q <> 0) end;
            first [exact (U2 eq_refl)|rewrite get_set_lower; discriminate]).
  all: try (rewrite ?T, ?Efn; cbn [by_length]; intros X; discriminate X).
  all: right; right.
  all: match goal with
       | |- get_upper14 (p_set_state ?q ?s) = 0 => change (get_upper14 q = 0)
       | _ => idtac
       end.
  all: rewrite ?get_set_upper, ?get_upper_set_lower by reflexivity; try reflexivity.
  all: destruct U' as [U'|[U'|U']]; [exfalso; congruence|exfalso; congruence|exact U'].
Qed.

Definition data_post (m m' : mach) (o : outcome) : Prop :=
  exists x, ml m' = ml m ++ x /\
  (data_bytes x + unread m' o + match o with Fail _ | Faulted _ => 0 | _ => pend (mp m') end
   <= unread m Continue + pend (mp m))%nat.

Definition data_of (e : event) : nat := match e with EData _ d => List.length d | _ => 0 end.

Lemma data_silent m p c o :
  (unread (Mach p c (ml m)) o + match o with Fail _ | Faulted _ => 0 | _ => pend p end
   <= unread m Continue + pend (mp m))%nat -> data_post m (Mach p c (ml m)) o.
Proof. intros H. exists []. split; [now rewrite app_nil_r|exact H]. Qed.

Lemma data_event m p c e o :
  (data_of e + unread (Mach p c (ml m)) o + match o with Fail _ | Faulted _ => 0 | _ => pend p end
   <= unread m Continue + pend (mp m))%nat -> data_post m (Mach p c (ml m ++ [e])) o.
Proof. intros H. exists [e]. split; [reflexivity|]. destruct e; cbn [data_bytes data_of] in *; rewrite ?Nat.add_0_r; exact H. Qed.

Lemma lower_ss p s : get_lower14 (p_set_state p s) = get_lower14 p. Proof. reflexivity. Qed.
Lemma upper_ss p s : get_upper14 (p_set_state p s) = get_upper14 p. Proof. reflexivity. Qed.
Lemma lower_wl p v : get_lower14 (with_length p v) = get_lower14 p. Proof. reflexivity. Qed.
Lemma upper_wl p v : get_upper14 (with_length p v) = get_upper14 p. Proof. reflexivity. Qed.

Lemma run_fn_data_bytes h m : vstate (parser_type (mp m)) (state_fn (mp m)) = true ->
  upper_ok (mp m) -> wp (run_fn h m) (data_post m).
Proof.
  destruct m as [p [cb mk sl r] l]. unfold run_fn, upper_ok. cbn [mp mc cslice].
  intros V U. destruct (state_fn p) eqn:Efn.
  all: unfold_state; lits.
  all: wp_all.
  all: match goal with
       | |- data_post _ (Mach _ _ (?z ++ [_])%list) _ => apply (data_event (Mach _ _ z))
       | |- data_post _ (Mach _ _ ?z) _ => apply (data_silent (Mach _ _ z))
       end.
  all: unfold unread, pend; cbn [mc mp crest cslice data_of state_fn p_set_state set_lower14 set_upper14 with_bits with_length] in *;
       rewrite ?Efn in *; cbn iota beta.
  all: rewrite ?app_length, ?skipn_length, ?firstn_length in *; cbn [List.length] in *.
  all: try lia.
  1-2: destruct (all_names_spec _ _ _ H) as (b & x & -> & -> & _ & _ & <- & _); subst r; rewrite ?app_length, map_length;
       cbn [List.length app]; rewrite ?app_length; cbn [List.length]; unfold byte in *; lia.
  1-2: destruct (parser_type p); cbn iota; lia.
  1-2: destruct (_ =? 13); cbn iota; lia.
  all: rewrite ?lower_ss, ?upper_ss.
  all: try (destruct (get_lower14 p =? 0) eqn:Lo; first [lia | exfalso; congruence]).
  - assert (T : parser_type p = Multipart) by (destruct (parser_type p); try discriminate V; reflexivity).
    destruct (U T) as [[X|[X|X]] _]; [discriminate X|discriminate X|]. rewrite X. destruct (_ =? 0); cbn; lia.
  - match goal with E : r = (?z ++ _)%list |- _ => set (s := z) in *; clearbody s end.
    rewrite get_lower_set_upper, get_set_upper.
    assert (L : (List.length s <= List.length r)%nat) by (rewrite E, app_length; lia).
    pose proof (N.mod_le (get_upper14 p + N.of_nat (List.length s)) (2 ^ 14) ltac:(discriminate)) as M.
    destruct (get_lower14 p =? 0); lia.
  - rewrite firstn_length. match goal with H : (get_lower14 p =? 0) = true |- _ => rewrite H end. lia.
  - rewrite firstn_length. match goal with H : (get_lower14 p =? 0) = true |- _ => rewrite H end. lia.
  - assert (T : parser_type p = Multipart) by (destruct (parser_type p); try discriminate V; reflexivity).
    destruct (U T) as [_ X]. specialize (X eq_refl). destruct (N.eqb_spec (get_lower14 p) 0); [contradiction|lia].
Qed.

(* A URL-encoded body can be waited for only in states in which one call more may
   follow. *)
Lemma run_fn_eos h m : vstate UrlEncoded (state_fn (mp m)) = true ->
  wp (run_fn h m) (fun m' o => forall n, o = Exit (SEos n) -> (1 <= owed (state_fn (mp m')))%nat).
Proof.
  destruct m as [p [cb mk sl r] l]. unfold run_fn. cbn [mp mc cslice].
  intros V. destruct (state_fn p) eqn:Efn; try discriminate V; clear V.
  all: unfold_state; lits.
  all: wp_all.
  all: intros ? X; try discriminate X.
  all: cbn [mp]; rewrite Efn; cbn [owed]; lia.
Qed.

