(* The texts tell values apart: proofs. *)

From Coq Require Import NArith List Bool String Ascii DecimalString DecimalPos DecimalN Lia.
From Verif Require Http1Model UtilModel.
From Verif Require Import Bytes Http2Types FormatModel.
Local Open Scope N_scope.
Local Open Scope string_scope.

Lemma dec_inj a b : dec a = dec b -> a = b.
Proof.
  intros E. unfold dec in E.
  assert (U : forall n, NilZero.uint_of_string (NilZero.string_of_uint (N.to_uint n)) = Some (N.to_uint n)).
  { intros n. rewrite NilZero.usu; [reflexivity|]. intros X.
    destruct n as [|p]; [discriminate X|]. exact (DecimalPos.Unsigned.to_uint_nonnil p X). }
  assert (X : Some (N.to_uint a) = Some (N.to_uint b)) by (rewrite <- !U, E; reflexivity).
  injection X as X. apply (f_equal N.of_uint) in X. now rewrite !DecimalN.Unsigned.of_to in X.
Qed.

(* A digit. *)
Definition digit (c : ascii) : bool := let n := N_of_ascii c in ((48 <=? n) && (n <=? 57))%N.

Fixpoint all_digits (s : string) : bool :=
  match s with "" => true | String c s => digit c && all_digits s end.

Lemma dec_digits n : all_digits (dec n) = true.
Proof.
  unfold dec. assert (H : forall u, all_digits (NilEmpty.string_of_uint u) = true) by (induction u; cbn; auto).
  destruct (N.to_uint n); cbn; auto.
Qed.

Lemma digits_end x y c d s t : all_digits x = true -> all_digits y = true -> digit c = false -> digit d = false ->
  x ++ String c s = y ++ String d t -> x = y /\ String c s = String d t.
Proof.
  revert y. induction x as [|a x IH]; intros [|b y] X Y C D E; cbn [append all_digits] in *.
  - auto.
  - injection E as -> _. apply andb_true_iff in Y. destruct Y. congruence.
  - injection E as <- _. apply andb_true_iff in X. destruct X. congruence.
  - injection E as <- E. apply andb_true_iff in X, Y. destruct X, Y. destruct (IH y) as [-> ->]; auto.
Qed.

Lemma dec_end a b c d s t : digit c = false -> digit d = false ->
  dec a ++ String c s = dec b ++ String d t -> a = b /\ String c s = String d t.
Proof.
  intros C D E. destruct (digits_end _ _ _ _ _ _ (dec_digits a) (dec_digits b) C D E) as [X Y].
  split; [now apply dec_inj|exact Y].
Qed.

Lemma after_prefix p x y : p ++ x = p ++ y -> x = y.
Proof. induction p as [|c p IH]; cbn [append]; intros E; [exact E|]. injection E as E. auto. Qed.

Lemma dec_last p a b c : digit c = false -> p ++ dec a ++ String c "" = p ++ dec b ++ String c "" -> a = b.
Proof. intros C E. apply after_prefix in E. now destruct (dec_end _ _ _ _ _ _ C C E). Qed.

Lemma dec_gt p a b : p ++ dec a ++ ">" = p ++ dec b ++ ">" -> a = b.
Proof. exact (dec_last p a b ">" eq_refl). Qed.

Lemma dec_par p a b : p ++ dec a ++ ")" = p ++ dec b ++ ")" -> a = b.
Proof. exact (dec_last p a b ")" eq_refl). Qed.

(* The name in a text, after n characters. *)
Fixpoint name_of (n : nat) (s : string) : string :=
  match s with
  | "" => ""
  | String c s =>
      match n with
      | S n => name_of n s
      | O => if (Ascii.eqb c ":" || Ascii.eqb c ">" || Ascii.eqb c "(")%bool then "" else String c (name_of 0 s)
      end
  end.

Ltac texts n :=
  match goal with
  | |- ?x = ?y -> _ =>
      let E := fresh "E" in
      intros E; first
        [ reflexivity
        | pose proof (dec_gt _ _ _ E); subst; reflexivity
        | exfalso; apply (f_equal (name_of n)) in E; lazy in E; discriminate E ]
  end.

Lemma http1_error_inj a b : http1_error_text a = http1_error_text b -> a = b.
Proof.
  destruct a as [a| |xa], b as [b| |xb]; try destruct a; try destruct b; unfold http1_error_text; texts 14%nat.
Qed.

Lemma success_debug_inj a b : success_debug a = success_debug b -> a = b.
Proof.
  assert (H : forall n m, N.of_nat n = N.of_nat m -> n = m) by (intros; lia).
  destruct a, b; unfold success_debug; intros E; first
    [ pose proof (dec_par _ _ _ E) as X; apply H in X; subst; reflexivity
    | exfalso; apply (f_equal (name_of 9)) in E; lazy in E; discriminate E ].
Qed.

Lemma frame_type_inj a b : frame_type_text a = frame_type_text b -> a = b.
Proof. destruct a, b; unfold frame_type_text; intros E; first [reflexivity|discriminate E]. Qed.

Lemma error_code_inj a b : error_code_text a = error_code_text b -> a = b.
Proof. destruct a, b; unfold error_code_text; intros E; first [reflexivity|discriminate E]. Qed.

Lemma setting_inj a b : setting_text a = setting_text b -> a = b.
Proof. destruct a, b; unfold setting_text; texts 10%nat. Qed.

Lemma decode_error_inj a b : decode_error_text a = decode_error_text b -> a = b.
Proof. destruct a, b; unfold decode_error_text; texts 14%nat. Qed.

Lemma query_error_inj a b : query_error_text a = query_error_text b -> a = b.
Proof. destruct a, b; unfold query_error_text; texts 13%nat. Qed.

Lemma field_error_inj a b : field_error_text a = field_error_text b -> a = b.
Proof. destruct a, b; unfold field_error_text; texts 13%nat. Qed.

(* Flags: what is written is what the predicates say. *)
Lemma flag_end a b s t : flag a ++ s = flag b ++ t -> a = b /\ s = t.
Proof.
  destruct a, b; cbn [flag append]; intros E; try discriminate E; injection E as ->; now split.
Qed.

Lemma append_assoc a b c : (a ++ b) ++ c = a ++ b ++ c.
Proof. induction a as [|x a IH]; cbn [append]; [reflexivity|]. now rewrite IH. Qed.

Definition flags_tail (f : flags) (s : string) : string :=
  "<Flags: ack: " ++ flag (flags_is_ack f) ++
  ", end_headers: " ++ flag (flags_is_end_headers f) ++
  ", end_stream: " ++ flag (flags_is_end_stream f) ++
  ", padded: " ++ flag (flags_is_padded f) ++
  ", priority: " ++ flag (flags_is_priority f) ++ ">" ++ s.

Lemma flags_tail_eq f s : flags_text f ++ s = flags_tail f s.
Proof. unfold flags_text, flags_tail. rewrite !append_assoc. reflexivity. Qed.

Definition same_flags (a b : flags) : Prop :=
  flags_is_ack a = flags_is_ack b /\ flags_is_end_headers a = flags_is_end_headers b /\
  flags_is_end_stream a = flags_is_end_stream b /\ flags_is_padded a = flags_is_padded b /\
  flags_is_priority a = flags_is_priority b.

Lemma flags_end a b s t : flags_text a ++ s = flags_text b ++ t -> same_flags a b /\ s = t.
Proof.
  rewrite !flags_tail_eq. unfold flags_tail. intros E.
  apply after_prefix, flag_end in E. destruct E as [E1 E].
  apply after_prefix, flag_end in E. destruct E as [E2 E].
  apply after_prefix, flag_end in E. destruct E as [E3 E].
  apply after_prefix, flag_end in E. destruct E as [E4 E].
  apply after_prefix, flag_end in E. destruct E as [E5 E].
  apply after_prefix in E. repeat split; assumption.
Qed.

Lemma append_nil s : s ++ "" = s.
Proof. induction s as [|c s IH]; cbn [append]; [reflexivity|]. now rewrite IH. Qed.

Lemma flags_text_inj a b : flags_text a = flags_text b <-> same_flags a b.
Proof.
  split.
  - intros E. apply (f_equal (fun s => s ++ "")) in E. now destruct (flags_end _ _ _ _ E).
  - intros (A & B & C & D & E). rewrite <- (append_nil (flags_text a)), <- (append_nil (flags_text b)), !flags_tail_eq.
    unfold flags_tail. now rewrite A, B, C, D, E.
Qed.

Lemma frame_type_end x y s t : frame_type_text x ++ String "," s = frame_type_text y ++ String "," t -> x = y /\ s = t.
Proof.
  destruct x, y; intros E; first
    [ cbn [frame_type_text append] in E; injection E as E; subst; now split
    | exfalso; apply (f_equal (name_of 12)) in E; lazy in E; discriminate E ].
Qed.

(* Frame headers: likewise. *)
Lemma frame_format_text_inj a b : frame_format_text a = frame_format_text b <->
  same_flags (frame_format_flags a) (frame_format_flags b) /\
  frame_format_frame_type a = frame_format_frame_type b /\
  frame_format_payload_length a = frame_format_payload_length b /\
  frame_format_stream_id a = frame_format_stream_id b.
Proof.
  split.
  - intros E. unfold frame_format_text in E.
    apply after_prefix, flags_end in E. destruct E as [E1 E].
    apply after_prefix in E.
    destruct (frame_type_end _ _ (" payload_length: " ++ _) (" payload_length: " ++ _) E) as [E2 E'].
    apply after_prefix in E'.
    destruct (dec_end _ _ "," "," (" stream_id: " ++ _) (" stream_id: " ++ _) eq_refl eq_refl E') as [E3 E''].
    assert (X : ", stream_id: " ++ dec (ff_stream_id a) ++ ">" = ", stream_id: " ++ dec (ff_stream_id b) ++ ">") by exact E''.
    apply dec_gt in X.
    repeat split; try assumption; apply E1.
  - intros (F & T & P & S). apply flags_text_inj in F. unfold frame_format_text, frame_format_stream_id in *.
    now rewrite F, T, P, S.
Qed.

Lemma texts_distinct :
  (forall a b, http1_error_text a = http1_error_text b -> a = b) /\
  (forall a b, success_debug a = success_debug b -> a = b) /\
  (forall a b, frame_type_text a = frame_type_text b -> a = b) /\
  (forall a b, error_code_text a = error_code_text b -> a = b) /\
  (forall a b, setting_text a = setting_text b -> a = b) /\
  (forall a b, decode_error_text a = decode_error_text b -> a = b) /\
  (forall a b, query_error_text a = query_error_text b -> a = b) /\
  (forall a b, field_error_text a = field_error_text b -> a = b).
Proof.
  split; [exact http1_error_inj|]. split; [exact success_debug_inj|]. split; [exact frame_type_inj|].
  split; [exact error_code_inj|]. split; [exact setting_inj|]. split; [exact decode_error_inj|].
  split; [exact query_error_inj|]. exact field_error_inj.
Qed.

Lemma texts_not_distinct :
  (exists a b, a <> b /\ success_display a = success_display b) /\
  (exists a b, flags_from_u8 a <> flags_from_u8 b /\ flags_text (flags_from_u8 a) = flags_text (flags_from_u8 b)) /\
  (exists a b, a <> b /\ frame_format_text a = frame_format_text b) /\
  (exists i j v, i <> j /\ setting_text (setting_new i v) = setting_text (setting_new j v)).
Proof.
  split; [exists (Http1Model.SEos 3), (Http1Model.SFinished 3); split; [discriminate|vm_compute; reflexivity]|].
  split; [exists 0%N, 2%N; split; [discriminate|vm_compute; reflexivity]|].
  split; [exists (frame_format_new 5 0 1 7), (frame_format_new 5 0 3 7); split; [discriminate|vm_compute; reflexivity]|].
  exists 7%N, 8%N, 1%N. split; [discriminate|vm_compute; reflexivity].
Qed.
