(* What happens in every case in which an expectation was refuted by a witness:
   zero-size chunks with extensions, escapes that are cut off, data that hides
   the delimiter. *)

From Coq Require Import NArith List Bool Arith String Lia.
From Verif Require Import Bytes Http1Model Http1Spec Http1Protocol Http1Wire Http1Accept
  Http1Parse Http1Parse2 Http1Parse3 Http1Parse4 Http1Verdict Http1Viable.
Import ListNotations.
Local Open Scope N_scope.
Local Open Scope list_scope.

(* ------------------------------------------------------------------ *)
(* Zero-size chunks                                                     *)
(* ------------------------------------------------------------------ *)

Lemma zero_chunk x e w L : extensions_as x e -> chunked_as w L ->
  chunked_as ([48] ++ x ++ crlf ++ crlf ++ w)
    ([FEv EChunkBegin; FEv (EChunkLength 0)] ++ e ++ [FEv EChunkExtsFinished] ++ L).
Proof.
  intros X W.
  pose proof (chunked_chunk _ _ _ _ (chunk_ext [48] x e [] (or_intror eq_refl) eq_refl X) W) as C.
  rewrite <- !app_assoc in C. exact C.
Qed.

Lemma zero_chunk_goes_on h q x e w L tail segs : extensions_as x e -> chunked_as w L ->
  List.concat segs = [48] ++ x ++ crlf ++ crlf ++ w ++ tail ->
  exists p' log, feed h (init_chunked q) segs = (p', log, tail, OFinished) /\
    flat log = [FEv EChunkBegin; FEv (EChunkLength 0)] ++ e ++ [FEv EChunkExtsFinished] ++ L.
Proof.
  intros X W E. apply chunked_exact. eexists. split; [|exact (zero_chunk _ _ _ _ X W)].
  refine (eq_trans E _). rewrite <- !app_assoc. reflexivity.
Qed.

Lemma empty_body : chunked_as ([48] ++ crlf ++ crlf) ([FEv EChunkBegin; FEv (EChunkLength 0)] ++ [FEv EHeadersFinished] ++ [FEv EBodyFinished]).
Proof. apply (chunked_end crlf [FEv EHeadersFinished]), lines_end. Qed.

Lemma zero_chunk_no_end h q x e segs : extensions_as x e ->
  List.concat segs = [48] ++ x ++ crlf ++ crlf ->
  exists p' log, feed h (init_chunked q) segs = (p', log, [], OEos).
Proof.
  intros X E.
  assert (NE : segs <> []) by (intros ->; discriminate).
  pose proof (zero_chunk _ _ _ _ X empty_body) as C.
  destruct (feed h (init_chunked q) segs) as [[[p' log] rest] o] eqn:F.
  pose proof (chunked_verdict h q segs p' log rest o NE F) as V. unfold right_verdict in V.
  assert (A : List.concat segs ++ ([48] ++ crlf ++ crlf) = ([48] ++ x ++ crlf ++ crlf ++ [48] ++ crlf ++ crlf) ++ []).
  { refine (eq_trans (f_equal (fun y => y ++ _) E) _). rewrite app_nil_r, <- !app_assoc. reflexivity. }
  destruct o.
  - destruct V as (-> & _). eauto.
  - exfalso. destruct V as (w & W & G).
    set (segs2 := segs ++ [[48] ++ crlf ++ crlf]).
    assert (S : List.concat segs2 = List.concat segs ++ ([48] ++ crlf ++ crlf)).
    { unfold segs2. rewrite concat_app. cbn [List.concat]. now rewrite app_nil_r. }
    destruct (proj2 (chunked_exact h q segs2 [] _) (ex_intro _ _ (conj (eq_trans S A) C))) as (p1 & l1 & F1 & _).
    destruct (proj2 (chunked_exact h q segs2 (rest ++ ([48] ++ crlf ++ crlf)) _)
      (ex_intro _ w (conj (eq_trans S (eq_trans (f_equal (fun y => y ++ _) W) (eq_sym (app_assoc w rest _)))) G)))
      as (p2 & l2 & F2 & _).
    rewrite F1 in F2. injection F2 as _ _ Z. destruct rest; discriminate Z.
  - exfalso. exact (V _ _ _ _ A C).
  - exfalso. exact (V _ _ _ _ A C).
  - contradiction.
Qed.

(* ------------------------------------------------------------------ *)
(* Escapes that are cut off                                             *)
(* ------------------------------------------------------------------ *)

Lemma encodes_coded stop d w : (forall b, In b stop -> In b (bs "=&;")) -> encodes d w -> coded stop d w.
Proof.
  intros S. induction 1; constructor; auto.
  - intros I. apply H0. cbn in *. tauto.
  - intros I. apply S in I. apply H0. cbn in *. tauto.
Qed.

Lemma pair_wire_as p w c : pair_wire p w -> cut_escape c -> pair_as c (w ++ c) (seen_pair p).
Proof.
  intros H C. destruct H as [n w NE E|n v w1 w2 E1 E2]; unfold seen_pair; cbn [fst snd].
  - rewrite app_nil_r. apply pair_only; [assumption|]. now apply encodes_coded.
  - rewrite <- !app_assoc. apply pair_both; [assumption| |]; apply encodes_coded; auto.
    intros b I. cbn in *. tauto.
Qed.

Lemma pair_wire_nonempty p w : pair_wire p w -> w <> [].
Proof. intros [n v NE _|n v w1 w2 _ _]; [assumption|]. destruct w1; discriminate. Qed.

Lemma body_cut ps w c : body_wire ps w -> ps <> [] -> cut_escape c ->
  pairs_as (w ++ c) (flat_map seen_pair ps).
Proof.
  intros H NE C. induction H as [|p w H|p ps w1 sep w2 H S N H2 IH]; [now destruct NE| |]; cbn [flat_map].
  - rewrite app_nil_r. apply (pairs_last c).
    + pose proof (pair_wire_nonempty _ _ H). destruct w; [contradiction|discriminate].
    + now apply pair_wire_as.
  - rewrite <- !app_assoc. apply pairs_more; [|assumption|now apply IH].
    pose proof (pair_wire_as p w1 [] H (or_introl eq_refl)) as P. now rewrite app_nil_r in P.
Qed.

Lemma cut_accepted h q ps w c tail segs :
  body_wire ps w -> ps <> [] -> c = [37] \/ (exists x, hexdigit x /\ c = [37; x]) ->
  List.concat segs = w ++ c ++ tail ->
  exists p' log,
    feed h (set_length (init_url_encoded q) (N.of_nat (List.length (w ++ c)))) segs = (p', log, tail, OFinished) /\
    flat log = seen_pairs ps.
Proof.
  intros H NE C E.
  assert (segs <> []).
  { intros ->. symmetry in E. apply app_eq_nil in E. destruct E as [_ E]. apply app_eq_nil in E.
    destruct E as [E _]. destruct C as [->|(x & _ & ->)]; discriminate. }
  apply url_exact; [assumption|]. exists (w ++ c), (flat_map seen_pair ps).
  split; [now rewrite <- app_assoc|]. split; [reflexivity|]. split; [|reflexivity].
  apply body_cut; [assumption..|]. right. destruct C as [->|C]; auto.
Qed.

(* ------------------------------------------------------------------ *)
(* Data that hides the delimiter                                        *)
(* ------------------------------------------------------------------ *)

Lemma folds_lines fs x e : Forall (fun '(c, l) => (c = 32 \/ c = 9) /\ field_text_ok Plain l = true) fs ->
  lines_as x e ->
  lines_as (flat_map (fun '(c, l) => c :: l ++ crlf) fs ++ x) (map (FByte KHeaderValue) (flat_map snd fs) ++ e).
Proof.
  induction 1 as [|[c l] fs [C T] F IH]; intros X; [exact X|]. cbn [flat_map snd].
  rewrite map_app, <- !app_assoc. apply (lines_line (c :: l ++ crlf)); [now apply line_more|]. now apply IH.
Qed.

Lemma folds_shift fs : flat_map (fun '(c, l) => crlf ++ c :: l) fs ++ crlf =
  crlf ++ flat_map (fun '(c, l) => c :: l ++ crlf) fs.
Proof.
  induction fs as [|[c l] fs IH]; [reflexivity|]. cbn [flat_map]. rewrite <- app_assoc, IH.
  cbn [app crlf]. rewrite <- !app_assoc. reflexivity.
Qed.

Lemma headers_lines fs : Forall wf_header fs -> lines_as (render_headers fs) (seen_headers fs).
Proof.
  unfold render_headers, seen_headers. induction 1 as [|f fs W F IH]; [apply lines_end|].
  destruct W as (_ & N & P & V & T & O). cbn [flat_map]. unfold render_header, seen_header.
  rewrite folds_shift, map_app, <- !app_assoc.
  pose proof (lines_line _ _ _ _ (line_field _ _ _ N P V T) (folds_lines _ _ _ O IH)) as L.
  rewrite <- !app_assoc in L. exact L.
Qed.

Lemma delimited_parts bd clen ps : (forall l, clen l = None) ->
  Forall (fun p => Forall wf_header (fst p) /\ delimited bd (snd p)) ps -> forall l,
  parts_as bd clen l (flat_map (render_part bd) (map plain_part ps) ++ bs "--")
    (flat_map seen_part (map plain_part ps) ++ [FEv EBodyFinished]).
Proof.
  intros C. induction 1 as [|[hs d] ps [W D] F IH]; intros l; [apply parts_end|].
  cbn [map flat_map]. unfold render_part at 1, seen_part at 1, seen_part_head.
  unfold plain_part at 1 2 3 4. cbn [m_headers m_data fst snd]. rewrite <- !app_assoc.
  refine (parts_part bd clen l (render_headers hs) (seen_headers hs) d _ _ _ _ _).
  - now apply headers_lines.
  - now rewrite C.
  - apply IH.
Qed.

(* No event of header lines is a question for a length. *)
Definition of_header (e : fevent) : Prop :=
  match e with FByte KHeaderName _ | FByte KHeaderValue _ => True | FEv EHeadersFinished => True | _ => False end.

Lemma of_header_map k l : k = KHeaderName \/ k = KHeaderValue -> Forall of_header (map (FByte k) l).
Proof. intros K. rewrite Forall_map. apply Forall_forall. intros b _. destruct K as [->| ->]; exact I. Qed.

Lemma lines_of_header x e : lines_as x e -> Forall of_header e.
Proof.
  induction 1 as [|w e w' e' H _ IH]; [repeat constructor|]. apply Forall_app. split; [|assumption].
  destruct H.
  - apply Forall_app. split; apply of_header_map; auto.
  - apply of_header_map; auto.
Qed.

Lemma seen_of_header hs : Forall of_header (seen_headers hs).
Proof.
  unfold seen_headers. apply Forall_app. split; [|repeat constructor].
  induction hs as [|f hs IH]; [constructor|]. cbn [flat_map]. apply Forall_app. split; [|assumption].
  unfold seen_header. apply Forall_app. split; apply of_header_map; auto.
Qed.

Lemma split_question (a b : list fevent) x y : Forall of_header a -> Forall of_header b ->
  a ++ FEv EContentLength :: x = b ++ FEv EContentLength :: y -> a = b /\ x = y.
Proof.
  intros A. revert b. induction A as [|u a U A IH]; intros b B E; destruct B as [|v b V B]; cbn [app] in E.
  - now injection E.
  - injection E as <- _. destruct V.
  - injection E as -> _. destruct U.
  - injection E as -> E. destruct (IH _ B E) as [-> ->]. now split.
Qed.

Definition opens (l : list fevent) : Prop := match l with FEv _ :: _ => True | _ => False end.

Lemma split_data d : forall d' x y, opens x -> opens y ->
  map (FByte KMultipartData) d ++ x = map (FByte KMultipartData) d' ++ y -> d = d' /\ x = y.
Proof.
  induction d as [|b d IH]; intros [|b' d'] x y X Y E; cbn [map app] in E.
  - now split.
  - destruct x as [|[? ?|?] ?]; try contradiction; discriminate.
  - destruct y as [|[? ?|?] ?]; try contradiction; discriminate.
  - injection E as -> E. destruct (IH _ _ _ X Y E) as [-> ->]. now split.
Qed.

Lemma parts_open bd clen l w e : parts_as bd clen l w e -> opens e.
Proof. intros []; exact I. Qed.

Lemma seen_open ps : opens (flat_map seen_part ps ++ [FEv EBodyFinished]).
Proof. destruct ps; exact I. Qed.

Lemma parts_delimited bd clen ps : (forall l, clen l = None) -> forall l w,
  parts_as bd clen l w (flat_map seen_part (map plain_part ps) ++ [FEv EBodyFinished]) ->
  Forall (fun p => delimited bd (snd p)) ps.
Proof.
  intros C. induction ps as [|[hs d] ps IH]; intros l w H; [constructor|].
  remember (flat_map seen_part (map plain_part ((hs, d) :: ps)) ++ [FEv EBodyFinished]) as L eqn:E.
  destruct H as [l|l x e d' w' e' X D P]; [discriminate E|].
  rewrite C in D. cbn [map flat_map] in E. unfold seen_part at 1, seen_part_head in E.
  unfold plain_part at 1 2 in E. cbn [m_headers m_data fst snd] in E. rewrite <- !app_assoc in E.
  cbn [app] in E. injection E as E.
  apply split_question in E; [|now apply lines_of_header in X|apply seen_of_header].
  destruct E as [-> E]. apply split_data in E; [|now apply parts_open in P|apply seen_open].
  destruct E as [-> ->]. constructor; [exact D|]. exact (IH _ _ P).
Qed.

Lemma data_exact_iff h q bd ps tail segs :
  (forall l, h_clen h l = None) -> ~ In 13 bd -> N.of_nat (List.length bd) <= 2 ^ 14 ->
  Forall (fun p => Forall wf_header (fst p)) ps ->
  List.concat segs = render_multipart bd (map plain_part ps) ++ tail ->
  (exists p' log, feed h (set_boundary (init_multipart q) bd) segs = (p', log, tail, OFinished) /\
     flat log = seen_multipart (map plain_part ps)) <->
  Forall (fun p => delimited bd (snd p)) ps.
Proof.
  intros Hc B L W E.
  rewrite (multipart_exact h (fun _ => None) q bd segs tail _ Hc B L). split.
  - intros (w & _ & M). remember (seen_multipart (map plain_part ps)) as L0 eqn:X.
    destruct M as [w' e P]. subst e. exact (parts_delimited bd _ ps (fun _ => eq_refl) _ _ P).
  - intros D. eexists. split; [exact E|]. unfold render_multipart, seen_multipart.
    apply multipart_parts, delimited_parts; [reflexivity|]. apply Forall_forall. intros p I.
    rewrite Forall_forall in W, D. auto.
Qed.

Lemma hidden bd d x : ~ In 13 d -> In x [[13]; crlf; crlf ++ [45]] -> ~ delimited bd (d ++ x).
Proof.
  intros N I. induction d as [|b d IH]; cbn [app].
  - intros D. cbn in I. destruct I as [<-|[<-|[<-|[]]]]; inversion D; subst; try congruence;
      repeat match goal with H : _ :: _ = _ |- _ => first [discriminate H | injection H; intros; subst] end; try congruence.
  - intros D. inversion D; subst; try (now destruct N; left).
    now apply IH; [intros ?; apply N; right|].
Qed.
