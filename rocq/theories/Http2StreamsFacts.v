(* Proofs about the program that puts together what is sent on streams. *)

From Coq Require Import NArith List Bool Arith Lia.
From Verif Require Import Bytes Http2Model Http2Spec Http2Api Http2Streams.
Import ListNotations.
Local Open Scope N_scope.

Lemma hear_data d : forall o e q b c g,
  fold_left hear (item KData d) (Hearing o e q b c g) =
  Hearing o e q [] c (g ++ (o, PData (b ++ d)) :: if e then [(o, PEnd)] else []).
Proof.
  unfold item. induction d as [|x d IH]; intros o e q b c g; cbn [map app fold_left].
  - cbn [hear on ends promise so_far block_ends heard end_of]. now rewrite app_nil_r.
  - cbn [hear on ends promise so_far block_ends heard]. rewrite IH, <- app_assoc. reflexivity.
Qed.

Definition made (q : option N) (b : list byte) : part :=
  match q with Some q => PPromise q b | None => PHeaders b end.

Lemma hear_fragment d : forall o e q b c g,
  fold_left hear (item KFragment d) (Hearing o e q b c g) =
  if c then Hearing o e None [] true (g ++ (o, made q (b ++ d)) :: if e then [(o, PEnd)] else [])
  else Hearing o e q (b ++ d) false g.
Proof.
  unfold item. induction d as [|x d IH]; intros o e q b c g; cbn [map app fold_left].
  - cbn [hear on ends promise so_far block_ends heard end_of]. rewrite app_nil_r. now destruct c, q.
  - cbn [hear on ends promise so_far block_ends heard]. rewrite IH, <- app_assoc. reflexivity.
Qed.

Lemma flag_fin fin l p r : N.testbit (flags_of fin l p r) 0 = fin.
Proof. now destruct fin, l, p, r. Qed.
Lemma flag_last fin l p r : N.testbit (flags_of fin l p r) 2 = l.
Proof. now destruct fin, l, p, r. Qed.

(* Behind the first frame of a header block that has not ended. *)
Lemma hear_continuation s ds : forall o e q b c g, ds <> [] ->
  heard (fold_left hear (seen_all (continuation s ds)) (Hearing o e q b c g)) =
  g ++ (o, made q (b ++ List.concat ds)) :: if e then [(o, PEnd)] else [].
Proof.
  induction ds as [|d ds IH]; intros o e q b c g NE; [congruence|].
  unfold seen_all. cbn [continuation map List.concat]. unfold seen at 1.
  cbn [f_body f_flags f_stream type_of seen_body app fold_left hear]. cbn [N.eqb Pos.eqb].
  cbn [on ends promise so_far block_ends heard]. rewrite fold_left_app, flag_last, hear_fragment.
  destruct ds as [|d' ds].
  - cbn [none continuation map List.concat fold_left heard]. now rewrite app_nil_r.
  - cbn [none]. fold (seen_all (continuation s (d' :: ds))). rewrite IH by discriminate. rewrite <- app_assoc. reflexivity.
Qed.

Definition quiet (ev : fevent) : Prop :=
  match ev with
  | FEnd KData | FEnd KFragment => False
  | _ => True
  end.

Lemma hear_quiet l : forall a, Forall quiet l -> heard (fold_left hear l a) = heard a.
Proof.
  induction l as [|ev l IH]; intros a F; [reflexivity|]. inversion F as [|? ? Q F2]; subst.
  cbn [fold_left]. rewrite IH by assumption. destruct ev as [k b|k|e].
  - now destruct k.
  - destruct k; try reflexivity; contradiction.
  - destruct e; try reflexivity. cbn [hear]. now destruct (frame_type =? 9).
Qed.

Lemma quiet_item k d : k <> KData -> k <> KFragment -> Forall quiet (item k d).
Proof.
  intros K1 K2. unfold item. apply Forall_app. split.
  - apply Forall_map, Forall_forall. intros b _. exact I.
  - constructor; [|constructor]. destruct k; try exact I; congruence.
Qed.

Lemma hear_message m a : wf_message m ->
  heard (fold_left hear (seen_all (frames_of m)) a) = heard a ++ says m.
Proof.
  intros [_ W]. destruct a as [o e q b c g]. destruct m as [s pad d fin|s pad prio d ds fin|s pad p d ds|f];
    unfold seen_all; cbn [frames_of map List.concat]; unfold seen at 1;
    cbn [f_body f_flags f_stream type_of seen_body app fold_left hear]; cbn [N.eqb Pos.eqb orb andb];
    cbn [on ends promise so_far block_ends heard]; rewrite ?flag_fin, ?flag_last.
  - rewrite app_nil_r, hear_data. cbn [heard says app]. now destruct fin.
  - assert (H : forall l, heard (fold_left hear (item KFragment d ++ l) (Hearing s fin None [] (none ds) g)) =
              heard (fold_left hear l (if none ds
                then Hearing s fin None [] true (g ++ (s, PHeaders d) :: if fin then [(s, PEnd)] else [])
                else Hearing s fin None d false g))).
    { intros l. rewrite fold_left_app, hear_fragment. now destruct (none ds). }
    assert (G : heard (fold_left hear (item KFragment d ++ seen_all (continuation s ds))
                (Hearing s fin None [] (none ds) g)) = g ++ says (MHeaders s pad prio d ds fin)).
    { rewrite H. destruct ds as [|d' ds].
      - cbn [none continuation seen_all map List.concat fold_left heard says app]. now rewrite app_nil_r.
      - cbn [none]. rewrite hear_continuation by discriminate. reflexivity. }
    fold (seen_all (continuation s ds)). rewrite <- app_assoc, fold_left_app.
    destruct prio as [[x y z]|]; [exact G|]. destruct pad; exact G.
  - fold (seen_all (continuation s ds)). rewrite fold_left_app, hear_fragment.
    change (bit31 false p) with p. destruct ds as [|d' ds].
    + cbn [none continuation seen_all map List.concat fold_left heard says app made]. now rewrite app_nil_r.
    + cbn [none]. rewrite hear_continuation by discriminate. reflexivity.
  - rewrite app_nil_r. cbn [says]. rewrite app_nil_r.
    set (a1 := if type_of (f_body f) =? 9 then _ else _).
    assert (A : heard a1 = g) by (unfold a1; now destruct (type_of (f_body f) =? 9)).
    rewrite hear_quiet; [exact A|].
    destruct (f_body f) as [| |x|x|x y| |x|r x y [|z d]|r x| |t pad x]; try contradiction; cbn [seen_body];
      repeat first [apply quiet_item; discriminate | apply Forall_nil | apply Forall_cons; [exact I|]].
Qed.

Lemma seen_all_app x y : seen_all (x ++ y) = seen_all x ++ seen_all y.
Proof. unfold seen_all. now rewrite map_app, concat_app. Qed.

Lemma hear_messages ms : forall a, Forall wf_message ms ->
  heard (fold_left hear (seen_all (flat_map frames_of ms)) a) = heard a ++ flat_map says ms.
Proof.
  induction ms as [|m ms IH]; intros a F; [symmetry; apply app_nil_r|]. inversion F as [|? ? W F2]; subst.
  cbn [flat_map]. rewrite seen_all_app, fold_left_app, IH by assumption. rewrite hear_message by assumption.
  now rewrite app_assoc.
Qed.

Lemma streams_heard ms v segs chk h :
  Forall wf_message ms -> v < 256 ->
  List.concat segs = render_all (flat_map frames_of ms) ++ [v] -> safe_cuts (flat_map frames_of ms) segs ->
  exists p log, feed chk h new segs = (p, log, OEos) /\ put_together (flat log) = flat_map says ms.
Proof.
  intros W V E C.
  assert (F : Forall wf_frame (flat_map frames_of ms)).
  { apply Forall_forall. intros f I. apply in_flat_map in I. destruct I as (m & M & I).
    rewrite Forall_forall in W. apply W in M. destruct M as [M _]. rewrite Forall_forall in M. now apply M. }
  destruct (h2_frames _ v segs chk h F V E C) as (p & log & _ & _ & X & L & _).
  exists p, log. split; [exact X|]. rewrite L. unfold put_together. now rewrite hear_messages.
Qed.

Lemma data_heard ms s : data_on s (flat_map says ms) =
  flat_map (fun m => match m with MData s' _ d _ => if s' =? s then d else [] | _ => [] end) ms.
Proof.
  induction ms as [|m ms IH]; [reflexivity|]. cbn [flat_map]. unfold data_on in *. rewrite flat_map_app, IH. f_equal.
  destruct m as [s' pad d fin|s' pad prio d ds fin|s' pad p d ds|f]; cbn [says flat_map fst snd app]; try reflexivity.
  - destruct fin; cbn [flat_map snd]; now rewrite !app_nil_r.
  - now destruct fin.
Qed.
