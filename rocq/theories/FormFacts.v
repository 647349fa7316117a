(* Proofs about the program that receives forms. *)

From Coq Require Import NArith List Bool Arith String Lia.
From Verif Require Import Bytes Http1Model Http1Spec Http1Wire Http1Reader Http1Cuts Http1Round Http1Round2 Http1Program
  Http1Understood Http1ProgramFacts UtilModel UtilSpec UtilFields UtilIter FormSpec.
Import ListNotations.
Local Open Scope N_scope.
Local Open Scope list_scope.

(* ------------------------------------------------------------------ *)
(* What is collected                                                    *)
(* ------------------------------------------------------------------ *)

Definition entry (f : header) : list byte * list byte := (map lower_case (h_name f), full_value f).

Definition clean (c : collected) (d : list section) (s : section) : Prop :=
  done c = d /\ now c = Some s /\ now_name c = [] /\ now_value c = [].

Lemma note_names ns : forall d s nm,
  fold_left note (map (FByte KHeaderName) ns) (Collected d s nm []) = Collected d s (nm ++ ns) [].
Proof.
  induction ns as [|b ns IH]; intros d s nm; cbn [map fold_left]; [now rewrite app_nil_r|].
  cbn [note with_field now_value done now now_name]. rewrite IH, <- app_assoc. reflexivity.
Qed.

Lemma note_values vs : forall d s nm vl,
  fold_left note (map (FByte KHeaderValue) vs) (Collected d s nm vl) = Collected d s nm (vl ++ vs).
Proof.
  induction vs as [|b vs IH]; intros d s nm vl; cbn [map fold_left]; [now rewrite app_nil_r|].
  cbn [note done now now_name now_value]. rewrite IH, <- app_assoc. reflexivity.
Qed.

Lemma note_data vs : forall d s nm vl,
  fold_left note (map (FByte KMultipartData) vs) (Collected d (Some s) nm vl) =
  Collected d (Some (Section (s_fields s) (s_data s ++ vs))) nm vl.
Proof.
  induction vs as [|b vs IH]; intros d s nm vl; cbn [map fold_left].
  - rewrite app_nil_r. now destruct s.
  - cbn [note done now now_name now_value option_map]. rewrite IH. cbn [s_fields s_data].
    now rewrite <- app_assoc.
Qed.

(* A header field, after others. *)
Lemma note_header f c d s : wf_header f -> clean (with_field c) d s ->
  clean (with_field (fold_left note (seen_header f) c)) d (Section (s_fields s ++ [entry f]) (s_data s)).
Proof.
  intros (N1 & _ & _ & V & _) (D & S & NN & NV).
  unfold seen_header. rewrite fold_left_app.
  destruct (map lower_case (h_name f)) as [|b ns] eqn:E.
  { destruct (h_name f); [congruence|discriminate E]. }
  cbn [map fold_left note]. destruct (with_field c) as [d0 s0 n0 v0]. cbn [done now now_name now_value] in *. subst.
  rewrite note_names, note_values. cbn [app].
  unfold entry, full_value. rewrite E.
  destruct (h_value f) as [|v vs]; [contradiction|]. cbn [app with_field now_value now done now_name].
  repeat split.
Qed.

Lemma note_headers fs : forall c d s, Forall wf_header fs -> clean (with_field c) d s ->
  clean (with_field (fold_left note (flat_map seen_header fs) c)) d
        (Section (s_fields s ++ map entry fs) (s_data s)).
Proof.
  induction fs as [|f fs IH]; intros c d s W C; cbn [flat_map map].
  - rewrite app_nil_r. cbn [fold_left]. now destruct s.
  - inversion W as [|? ? W1 W2]; subst. rewrite fold_left_app.
    apply (note_header f) in C; [|assumption]. apply IH in C; [|assumption]. cbn [s_fields s_data] in C.
    now rewrite <- app_assoc in C.
Qed.

Lemma note_head fs c d s : Forall wf_header fs -> clean c d s ->
  clean (fold_left note (seen_headers fs) c) d (Section (s_fields s ++ map entry fs) (s_data s)).
Proof.
  intros W C. unfold seen_headers. rewrite fold_left_app. cbn [fold_left note].
  apply note_headers; [assumption|]. destruct C as (C1 & C2 & C3 & C4).
  unfold with_field. rewrite C4. now split.
Qed.

Definition of_part (p : part) : section := Section (map entry (m_headers p)) (m_data p).

Lemma note_part p c d s : Forall wf_header (m_headers p) -> clean c d s ->
  clean (fold_left note (seen_part p) c) (d ++ [s]) (of_part p).
Proof.
  intros W (C1 & C2 & C3 & C4). unfold seen_part, seen_part_head. rewrite !fold_left_app.
  cbn [fold_left]. set (c1 := note c (FEv EMultipartBegin)).
  assert (K : clean c1 (d ++ [s]) (Section [] [])).
  { unfold c1. cbn [note]. rewrite C1, C2. now repeat split. }
  apply (note_head (m_headers p)) in K; [|assumption]. cbn [s_fields s_data app] in K.
  destruct (fold_left note (seen_headers (m_headers p)) c1) as [d0 s0 n0 v0].
  destruct K as (K1 & K2 & K3 & K4). cbn [done now now_name now_value] in *. subst.
  cbn [note]. rewrite note_data. cbn [s_fields s_data app]. repeat split.
Qed.

Lemma note_parts ps : forall c d s, Forall (fun p => Forall wf_header (m_headers p)) ps -> clean c d s ->
  exists s', clean (fold_left note (flat_map seen_part ps) c) (removelast (d ++ s :: map of_part ps)) s' /\
    d ++ s :: map of_part ps = removelast (d ++ s :: map of_part ps) ++ [s'].
Proof.
  induction ps as [|p ps IH]; intros c d s W C; cbn [flat_map map].
  - exists s. rewrite removelast_last. cbn [fold_left]. now split.
  - inversion W as [|? ? W1 W2]; subst. rewrite fold_left_app.
    apply (note_part p) in C; [|assumption]. apply IH in C; [|assumption].
    now rewrite <- app_assoc in C.
Qed.

Lemma note_seen_head fs c : Forall wf_header fs -> now c = None ->
  clean (fold_left note (FEv EInitialFinished :: seen_headers fs) c) (done c) (Section (map entry fs) []).
Proof.
  intros W N. cbn [fold_left]. change (Section (map entry fs) []) with
    (Section (s_fields (Section [] []) ++ map entry fs) (s_data (Section [] []))).
  apply note_head; [assumption|]. cbn [note]. rewrite N, app_nil_r. now repeat split.
Qed.

Lemma note_other l : forall c, (forall e, In e l -> exists b, e = FByte KMethod b \/ e = FByte KUrl b) ->
  fold_left note l c = c.
Proof.
  induction l as [|e l IH]; intros c H; cbn [fold_left]; [reflexivity|].
  destruct (H e (or_introl eq_refl)) as [b [->| ->]]; cbn [note]; apply IH; intros; apply H; now right.
Qed.

Lemma collected_request req : wf_request req ->
  clean (fold_left note (seen_request req) (Collected [] None [] [])) [] (Section (map entry (q_headers req)) []).
Proof.
  intros (_ & _ & _ & _ & _ & _ & W). unfold seen_request. rewrite app_assoc, fold_left_app.
  rewrite (note_other (map (FByte KMethod) (q_method req) ++ map (FByte KUrl) (q_url req))).
  - cbn [app]. cbn [fold_left].
    exact (note_seen_head (q_headers req) (Collected [] None [] []) W eq_refl).
  - intros e I. apply in_app_or in I. destruct I as [I|I]; apply in_map_iff in I; destruct I as (b & <- & _); eauto.
Qed.

Lemma sections_clean l d s : clean (fold_left note l (Collected [] None [] [])) d s -> sections l = d ++ [s].
Proof. intros (D & S & _). unfold sections. now rewrite D, S. Qed.

Lemma sections_request req : wf_request req -> sections (seen_request req) = [Section (map entry (q_headers req)) []].
Proof. intros W. now rewrite (sections_clean _ _ _ (collected_request req W)). Qed.

Lemma sections_form req ps : wf_request req -> Forall (fun p => Forall wf_header (m_headers p)) ps ->
  sections (seen_request req ++ seen_multipart ps) = Section (map entry (q_headers req)) [] :: map of_part ps.
Proof.
  intros W P. pose proof (collected_request req W) as C.
  destruct (note_parts ps _ _ _ P C) as (s' & C2 & E). cbn [app] in E, C2.
  rewrite E. apply sections_clean. unfold seen_multipart. rewrite !fold_left_app. cbn [fold_left note].
  exact C2.
Qed.

(* ------------------------------------------------------------------ *)
(* Parameters                                                           *)
(* ------------------------------------------------------------------ *)

Lemma says_parameter fs field name x d : says fs field name x ->
  field_parameter field name (Section (map entry fs) d) = Some x.
Proof.
  intros (v & items & L & F & X). unfold field_parameter. cbn [s_fields].
  change (map entry fs) with (map (fun f => (map lower_case (h_name f), full_value f)) fs).
  rewrite L. unfold parameter. now rewrite (fields_all true 59 v items semicolon_delimiter F), X.
Qed.

(* ------------------------------------------------------------------ *)
(* The program                                                          *)
(* ------------------------------------------------------------------ *)

Lemma form_boundaries : good_boundaries receive_form.
Proof.
  intros l bd. unfold receive_form. destruct (sections l) as [|s [|s2 r]]; try discriminate.
  destruct (field_parameter _ _ s) as [bd'|]; [|discriminate].
  destruct ((_ <=? 70)%nat && _) eqn:E; [|discriminate]. intros X. injection X as ->.
  apply andb_true_iff in E. destruct E as [E1 E2]. apply Nat.leb_le in E1. split.
  - intros I. apply (proj1 (forallb_forall _ _) E2) in I. discriminate I.
  - change (2 ^ 14) with 16384. unfold byte in *. lia.
Qed.

Lemma read_request req tail : wf_request req -> hd 0 (q_method req) <> 72 ->
  read_head (render_request req ++ tail) = (seen_request req, Complete tail) /\
  hok (strip (render_request req ++ tail)) = true.
Proof.
  intros W H.
  assert (K : hok (strip (render_request req ++ tail)) = true).
  { unfold render_request. rewrite <- !app_assoc. destruct W as (B & M1 & M2 & _).
    rewrite strip_blank by assumption. destruct (q_method req) as [|b m]; [congruence|].
    inversion M2 as [|? ? M3 M4]; subst. cbn [app strip].
    replace ((b =? 13) || (b =? 10) || (b =? 9) || (b =? 32)) with false.
    { cbn [hok hd] in *. apply N.eqb_neq in H. now rewrite H. }
    symmetry. rewrite !orb_false_iff, !N.eqb_neq. unfold byte in *. lia. }
  split; [|exact K].
  set (w := render_request req ++ tail) in *.
  assert (E : List.concat [w] = w) by apply app_nil_r.
  destruct (request_round yes new req tail [w] W E (or_introl H)) as (p' & log & F & L).
  pose proof (head_understood yes new [w]) as U. rewrite E, F in U.
  specialize (U ltac:(discriminate) (or_introl K)). cbn [understood] in U.
  destruct (read_head w) as [x [y|a|e|]]; cbn [fst snd] in U.
  - destruct U as (_ & U1 & U2 & _). congruence.
  - destruct U as [U _]. discriminate U.
  - destruct U as [(e' & U & _) _]. discriminate U.
  - destruct U as [[x0 U] _]. discriminate U.
Qed.

Lemma read_parts bd ps tail : ~ In 13 bd -> N.of_nat (List.length bd) <= 2 ^ 14 ->
  Forall (fun p => wf_part p /\ m_answer p = None) ps ->
  read_multipart bd (fun _ => None) (render_multipart bd ps ++ tail) = (seen_multipart ps, Complete tail).
Proof.
  intros B1 B2 W.
  set (w := render_multipart bd ps ++ tail) in *.
  assert (E : List.concat [w] = w) by apply app_nil_r.
  destruct (multipart_round_none yes new bd ps tail [w]) as (p' & log & F & L); auto.
  pose proof (multipart_understood yes (fun _ => None) new bd [w]) as U. rewrite E, F in U.
  specialize (U ltac:(discriminate) (fun _ => eq_refl) B1 B2). cbn [understood] in U.
  destruct (read_multipart bd (fun _ => None) w) as [x [y|a|e|]]; cbn [fst snd] in U.
  - destruct U as (_ & U1 & U2 & _). congruence.
  - destruct U as [U _]. discriminate U.
  - destruct U as [(e' & U & _) _]. discriminate U.
  - destruct U as [[x0 U] _]. discriminate U.
Qed.

(* The boundary of the head is found. *)
Lemma next_is_body req bd : wf_request req -> says (q_headers req) "content-type" "boundary" bd ->
  (List.length bd <= 70)%nat -> ~ In 13 bd -> receive_form (seen_request req) = Some (AMultipart bd).
Proof.
  intros W S L C. unfold receive_form. rewrite (sections_request req W), (says_parameter _ _ _ _ _ S).
  replace (_ <=? 70)%nat with true by (symmetry; now apply Nat.leb_le).
  replace (forallb _ bd) with true; [reflexivity|].
  symmetry. apply forallb_forall. intros b I. apply negb_true_iff, N.eqb_neq. intros ->. contradiction.
Qed.

(* Whatever the header fields of the parts say. *)
Lemma form_sections h p req bd ps tail segs :
  (forall l, h_clen h l = None) ->
  wf_request req -> hd 0 (q_method req) <> 72 ->
  says (q_headers req) "content-type" "boundary" bd -> (List.length bd <= 70)%nat -> ~ In 13 bd ->
  Forall (fun x => wf_part x /\ m_answer x = None) ps ->
  List.concat segs = render_request req ++ render_multipart bd ps ++ tail ->
  exists p' log segs', work 2 h receive_form p [] segs = (p', log, segs', OFinished) /\
    List.concat segs' = tail /\
    form_of (flat log) = map (fun x => (field_parameter "content-disposition" "name" (of_part x), m_data x)) ps.
Proof.
  intros Hc W H S L C P E.
  assert (B : N.of_nat (List.length bd) <= 2 ^ 14) by (change (2 ^ 14) with 16384; unfold byte in *; lia).
  assert (NE : segs <> []).
  { intros ->. cbn in E. destruct W as (_ & M & _). unfold render_request in E.
    symmetry in E. apply app_eq_nil in E. destruct E as [E _]. apply app_eq_nil in E. destruct E as [_ E].
    apply app_eq_nil in E. now destruct E. }
  destruct (read_request req (render_multipart bd ps ++ tail) W H) as [R K]. rewrite <- E in R, K.
  pose proof (read_parts bd ps tail C B P) as R2.
  pose proof (next_is_body req bd W S L C) as N2.
  assert (RS : read_stream 2 (fun _ => None) receive_form [] (List.concat segs) =
               (seen_request req ++ seen_multipart ps, Complete tail)).
  { cbn [read_stream]. change (receive_form []) with (Some AHead). cbv iota beta. rewrite R. cbn [app].
    rewrite N2. cbv iota beta. rewrite R2. reflexivity. }
  assert (PH : plain_heads 2 (fun _ => None) receive_form [] (List.concat segs)).
  { cbn [plain_heads]. change (receive_form []) with (Some AHead). cbv iota beta. split; [intros _; exact K|].
    rewrite R. cbn [app]. rewrite N2. split; [discriminate|]. rewrite R2. exact I. }
  pose proof (program_stream h (fun _ => None) receive_form 2 p segs Hc form_boundaries NE PH) as G.
  rewrite RS in G. destruct (work 2 h receive_form p [] segs) as [[[p' log] segs'] o].
  cbn [goes fst snd] in G. destruct G as (-> & G1 & G2).
  exists p', log, segs'. split; [reflexivity|]. split; [exact G2|].
  rewrite G1. unfold form_of. rewrite sections_form; [|assumption|].
  - cbn [tl]. rewrite map_map. reflexivity.
  - revert P. apply Forall_impl. intros a [[A _] _]. exact A.
Qed.

Lemma form_received h p req bd ps tail segs names :
  (forall l, h_clen h l = None) ->
  wf_request req -> hd 0 (q_method req) <> 72 ->
  says (q_headers req) "content-type" "boundary" bd -> (List.length bd <= 70)%nat -> ~ In 13 bd ->
  Forall (fun x => wf_part x /\ m_answer x = None) ps ->
  Forall2 (fun x n => says (m_headers x) "content-disposition" "name" n) ps names ->
  List.concat segs = render_request req ++ render_multipart bd ps ++ tail ->
  exists p' log segs', work 2 h receive_form p [] segs = (p', log, segs', OFinished) /\
    List.concat segs' = tail /\ form_of (flat log) = combine (map Some names) (map m_data ps).
Proof.
  intros Hc W H S L C P N E.
  destruct (form_sections h p req bd ps tail segs Hc W H S L C P E) as (p' & log & segs' & X & T & Y).
  exists p', log, segs'. split; [exact X|]. split; [exact T|]. rewrite Y.
  clear - N. induction N as [|x n ps names X N IH]; [reflexivity|]. cbn [map combine].
  rewrite IH. f_equal. unfold of_part. rewrite (says_parameter _ _ _ _ _ X). reflexivity.
Qed.

(* ------------------------------------------------------------------ *)
(* Forms as user agents write them                                      *)
(* ------------------------------------------------------------------ *)

Lemma lookup_behind {A} name (l1 : list (list byte * A)) x l2 :
  (forall y, In y l1 -> fst y <> name) -> lookup name (l1 ++ (name, x) :: l2) = Some x.
Proof.
  induction l1 as [|[n y] l1 IH]; intros H; cbn [app lookup].
  - now destruct (list_eq_dec N.eq_dec name name).
  - destruct (list_eq_dec N.eq_dec n name) as [->|_].
    + now destruct (H _ (or_introl eq_refl)).
    + apply IH. intros z I. apply H. now right.
Qed.

Lemma text_plain v : Forall (fun b => 33 <= b <= 126 /\ b <> 34) v -> field_text_ok Plain v = true.
Proof.
  induction v as [|b v IH]; intros F; [reflexivity|]. inversion F as [|? ? [B1 B2] F2]; subst.
  cbn [field_text_ok]. replace (b =? 34) with false by (symmetry; now apply N.eqb_neq).
  rewrite IH by assumption. unfold field_byte, Http1Protocol.text_byte.
  replace (32 <=? b) with true by (symmetry; apply N.leb_le; lia).
  replace (b =? 127) with false by (symmetry; apply N.eqb_neq; lia).
  replace (b <? 255) with true by (symmetry; apply N.ltb_lt; lia).
  now rewrite orb_true_r.
Qed.

Lemma text_escape v : Forall name_byte v -> field_text_ok Quoted (escape v ++ [34]) = true.
Proof.
  induction v as [|b v IH]; intros F; [reflexivity|]. inversion F as [|? ? B F2]; subst.
  change (escape (b :: v)) with ((if (b =? 34) || (b =? 92) then [92; b] else [b]) ++ escape v).
  specialize (IH F2). destruct (b =? 34) eqn:E1; [apply N.eqb_eq in E1; subst b; exact IH|].
  destruct (b =? 92) eqn:E2; [apply N.eqb_eq in E2; subst b; exact IH|].
  cbn [orb app field_text_ok]. rewrite E1, E2, IH. unfold field_byte, Http1Protocol.text_byte, name_byte in *.
  rewrite andb_true_r. apply andb_true_iff. split; [|apply N.ltb_lt; lia].
  apply orb_true_iff. destruct B as [->|B]; [left; reflexivity|right].
  apply andb_true_iff. split; [apply N.leb_le; lia|]. apply negb_true_iff, N.eqb_neq. lia.
Qed.

Lemma quoted_escape v : Forall name_byte v -> FQuoted (escape v) v.
Proof.
  induction v as [|b v IH]; intros F; [constructor|]. inversion F as [|? ? B F2]; subst.
  change (escape (b :: v)) with ((if (b =? 34) || (b =? 92) then [92; b] else [b]) ++ escape v).
  specialize (IH F2). destruct (b =? 34) eqn:E1; [cbn [orb app]; now constructor|].
  destruct (b =? 92) eqn:E2; [cbn [orb app]; now constructor|].
  cbn [orb app]. apply N.eqb_neq in E1, E2. constructor; [|assumption|assumption].
  unfold value_byte, name_byte in *. lia.
Qed.

Lemma boundary_text bd : Forall boundary_byte bd -> Forall (fun b => 33 <= b <= 126 /\ b <> 34) bd.
Proof. apply Forall_impl. intros b (B1 & B2 & _). now split. Qed.

Lemma field_text_app v w : field_text_ok Plain v = true -> field_text_ok Plain w = true ->
  field_text_ok Plain (v ++ w) = true.
Proof.
  intros V W.
  assert (G : forall m, field_text_ok m v = true -> field_text_ok m (v ++ w) = true).
  { clear V. induction v as [|b v IH]; intros m V; cbn [app field_text_ok] in *.
    - now destruct m.
    - destruct m.
      + destruct (b =? 34); [now apply IH|]. apply andb_true_iff in V. destruct V as [-> V]. now apply IH.
      + destruct (b =? 34); [now apply IH|]. destruct (b =? 92); [now apply IH|].
        apply andb_true_iff in V. destruct V as [-> V]. now apply IH.
      + apply andb_true_iff in V. destruct V as [-> V]. now apply IH. }
  now apply G.
Qed.

Lemma content_type_ok bd : Forall boundary_byte bd -> wf_header (content_type bd).
Proof.
  intros B. unfold wf_header, content_type. cbn [h_name h_pad h_value h_folds].
  split; [discriminate|]. split; [repeat constructor|]. split; [repeat constructor|].
  split; [reflexivity|]. split; [|constructor].
  apply field_text_app; [reflexivity|]. now apply text_plain, boundary_text.
Qed.

Lemma disposition_ok n : Forall name_byte n -> wf_header (disposition n).
Proof.
  intros B. unfold wf_header, disposition. cbn [h_name h_pad h_value h_folds].
  split; [discriminate|]. split; [repeat constructor|]. split; [repeat constructor|].
  split; [reflexivity|]. split; [|constructor].
  apply field_text_app; [reflexivity|]. cbn [app]. cbn [field_text_ok]. now apply text_escape.
Qed.

Lemma content_type_says hs1 bd hs2 : bd <> [] -> Forall boundary_byte bd ->
  (forall f, In f hs1 -> map lower_case (h_name f) <> bs "content-type") ->
  says (hs1 ++ content_type bd :: hs2) "content-type" "boundary" bd.
Proof.
  intros NE B H. exists (bs "multipart/form-data; boundary=" ++ bd),
    [(bs "multipart/form-data", None); (bs "boundary", Some bd)].
  split; [|split; [|reflexivity]].
  - rewrite map_app. cbn [map]. unfold full_value at 2, content_type at 1 2 3. cbn [h_name h_value h_folds flat_map].
    rewrite app_nil_r. apply lookup_behind. intros y I. apply in_map_iff in I. destruct I as (f & <- & I). now apply H.
  - change (bs "multipart/form-data; boundary=" ++ bd) with
      (bs "multipart/form-data" ++ 59 :: ([32] ++ bs "boundary" ++ 61 :: [] ++ bd)).
    apply (f_cons true 59 (bs "multipart/form-data") (bs "multipart/form-data", None)).
    + apply (ff_name true 59 [] (bs "multipart/form-data")); [constructor|]. now apply name_check.
    + apply f_last. apply (fl_pair true 59 [32] (bs "boundary") [] bd); try assumption.
      * repeat constructor.
      * now apply name_check.
      * constructor.
      * revert B. apply Forall_impl. intros b (B1 & B2 & B3). split; [|assumption]. unfold value_byte. lia.
      * destruct bd as [|b bd]; [exact I|]. inversion B as [|? ? (B1 & B2 & _) _]; subst.
        split; [|assumption]. unfold ws. lia.
Qed.

Lemma disposition_says n : Forall name_byte n -> says [disposition n] "content-disposition" "name" n.
Proof.
  intros B. exists (bs "form-data; name=" ++ [34] ++ escape n ++ [34]),
    [(bs "form-data", None); (bs "name", Some n)].
  split; [|split; [|reflexivity]].
  - unfold disposition, full_value. cbn [map h_name h_value h_folds flat_map]. rewrite app_nil_r. reflexivity.
  - change (bs "form-data; name=" ++ [34] ++ escape n ++ [34]) with
      (bs "form-data" ++ 59 :: ([32] ++ bs "name" ++ 61 :: [] ++ 34 :: escape n ++ 34 :: [])).
    apply (f_cons true 59 (bs "form-data") (bs "form-data", None)).
    + apply (ff_name true 59 [] (bs "form-data")); [constructor|]. now apply name_check.
    + apply f_last. apply (fl_quoted true 59 [32] (bs "name") [] (escape n) n []).
      * repeat constructor.
      * now apply name_check.
      * constructor.
      * now apply quoted_escape.
      * constructor.
Qed.

Lemma form_as_written h p req hs1 hs2 bd fields tail segs :
  (forall l, h_clen h l = None) ->
  wf_request req -> hd 0 (q_method req) <> 72 ->
  q_headers req = hs1 ++ content_type bd :: hs2 ->
  (forall f, In f hs1 -> map lower_case (h_name f) <> bs "content-type") ->
  bd <> [] -> (List.length bd <= 70)%nat -> Forall boundary_byte bd ->
  Forall (fun x => Forall name_byte (fst x) /\ tame (snd x) = true) fields ->
  List.concat segs = render_request req ++ render_multipart bd (map form_part fields) ++ tail ->
  exists p' log segs', work 2 h receive_form p [] segs = (p', log, segs', OFinished) /\
    List.concat segs' = tail /\ form_of (flat log) = map (fun x => (Some (fst x), snd x)) fields.
Proof.
  intros Hc W H Q O NE L B F E.
  destruct (form_received h p req bd (map form_part fields) tail segs (map fst fields) Hc W H)
    as (p' & log & segs' & X & T & Y); auto.
  - rewrite Q. now apply content_type_says.
  - intros I. rewrite Forall_forall in B. apply B in I. destruct I as [I _]. lia.
  - rewrite Forall_map. revert F. apply Forall_impl. intros [n d] [N D]. cbn [fst snd] in *.
    split; [|reflexivity]. split; [|exact D]. cbn. repeat constructor; now apply disposition_ok.
  - clear - F. induction F as [|[n d] fs [N D] F IH]; cbn [map]; [constructor|]. constructor; [|assumption].
    now apply disposition_says.
  - exists p', log, segs'. split; [exact X|]. split; [exact T|]. rewrite Y, !map_map. clear.
    induction fields as [|x fs IH]; [reflexivity|]. cbn [map combine]. now rewrite IH.
Qed.
