(* The name of an uploaded file is lost. *)

From Coq Require Import NArith List Bool Arith String Lia.
From Verif Require Import Bytes Http1Model Http1Spec Http1Wire Http1Program UtilModel UtilSpec UtilFields UtilIter
  FormSpec FormSamples FormFacts.
Import ListNotations.
Local Open Scope N_scope.
Local Open Scope list_scope.

Lemma file_upload_refuted : exists req bd n m d,
  wf_request req /\ says (q_headers req) "content-type" "boundary" bd /\
  let '(_, log, _, o) := work 2 yes receive_form new []
    [render_request req ++ render_multipart bd [plain_part ([file_disposition n m], d)]] in
  o = OFinished /\ n <> [] /\ form_of (flat log) = [(None, d)].
Proof.
  exists sample_request, (bs "xYz"), (bs "photo"), (bs "me.png"), (bs "PNG").
  split; [unfold wf_request; cbn; repeat (split || constructor); try discriminate; try reflexivity|].
  split; [|vm_compute; repeat split; discriminate].
  apply (content_type_says [Header (bs "Host") [32] (bs "example.org") []] (bs "xYz")).
  - discriminate.
  - repeat constructor; discriminate.
  - intros f [<-|[]]. vm_compute. discriminate.
Qed.

(* ------------------------------------------------------------------ *)
(* Every form with files                                                *)
(* ------------------------------------------------------------------ *)

Lemma file_disposition_ok n m : Forall name_byte n -> Forall name_byte m -> wf_header (file_disposition n m).
Proof.
  intros B C. unfold wf_header, file_disposition. cbn [h_name h_pad h_value h_folds].
  split; [discriminate|]. split; [repeat constructor|]. split; [repeat constructor|].
  split; [reflexivity|]. split; [|constructor].
  apply field_text_app; [reflexivity|].
  change ([34] ++ escape n ++ [34] ++ bs "; filename=" ++ [34] ++ escape m ++ [34]) with
    ((34 :: escape n) ++ [34] ++ bs "; filename=" ++ 34 :: escape m ++ [34]).
  rewrite app_assoc. apply field_text_app.
  - cbn [app field_text_ok]. now apply text_escape.
  - apply field_text_app; [reflexivity|]. cbn [field_text_ok]. now apply text_escape.
Qed.

Lemma file_name_lost n m fs d : Forall name_byte n ->
  field_parameter "content-disposition" "name" (Section (map entry (file_disposition n m :: fs)) d) = None.
Proof.
  intros B. unfold field_parameter. cbn [s_fields map].
  unfold entry at 1, full_value, file_disposition at 1 2. cbn [h_name h_value h_folds flat_map].
  rewrite app_nil_r. change (lookup (bs "content-disposition") _) with
    (Some (bs "form-data; name=" ++ [34] ++ escape n ++ [34] ++ bs "; filename=" ++ [34] ++ escape m ++ [34])).
  unfold parameter, field_all.
  set (t := bs "form-data; name=" ++ _).
  assert (R : Runs (fstep true 59) true t [(bs "form-data", None)] [EValue 32] NNone).
  { change t with (bs "form-data" ++ 59 :: ([32] ++ bs "name") ++ 61 :: [] ++ 34 :: escape n ++ 34 :: [] ++ 59 :: 32 ::
      (bs "filename=" ++ [34] ++ escape m ++ [34])).
    change [EValue 32] with (@nil iter_error ++ [EValue 32]).
    eapply runs_item.
    - eapply fs_name_delim.
      + apply (fname_plain true 59 [] (Forall_nil _) (bs "form-data")). now apply name_check.
      + destruct semicolon_delimiter as (D1 & D2 & D3 & D4 & D5). repeat split; auto. tauto.
    - apply runs_stop with []; [|auto]. eapply fs_quoted_bad.
      + apply fname_plain; [repeat constructor|]. now apply name_check.
      + constructor.
      + now apply quoted_escape.
      + constructor.
      + unfold ws. lia.
      + lia. }
  rewrite (field_runs _ _ true t _ _ _ R); auto.
Qed.

Lemma kind_ok kind : kind <> [] -> Forall kind_byte kind -> wf_header (Header (bs "Content-Type") [32] kind []).
Proof.
  intros NE K. unfold wf_header. cbn [h_name h_pad h_value h_folds].
  split; [discriminate|]. split; [repeat constructor|]. split; [repeat constructor|].
  destruct kind as [|b kind]; [contradiction|].
  split; [|split; [|constructor]].
  - inversion K as [|? ? [K1 K2] _]; subst. unfold starts_visible, visible_byte. apply andb_true_iff. split; apply N.leb_le; lia.
  - now apply text_plain.
Qed.

Lemma files_received h p req hs1 hs2 bd xs tail segs :
  (forall l, h_clen h l = None) ->
  wf_request req -> hd 0 (q_method req) <> 72 ->
  q_headers req = hs1 ++ content_type bd :: hs2 ->
  (forall f, In f hs1 -> map lower_case (h_name f) <> bs "content-type") ->
  bd <> [] -> (List.length bd <= 70)%nat -> Forall boundary_byte bd ->
  Forall wf_control xs ->
  List.concat segs = render_request req ++ render_multipart bd (map control_part xs) ++ tail ->
  exists p' log segs', work 2 h receive_form p [] segs = (p', log, segs', OFinished) /\
    List.concat segs' = tail /\
    form_of (flat log) = map (fun x => match x with Field n d => (Some n, d) | File _ _ _ d => (None, d) end) xs.
Proof.
  intros Hc W H Q O NE L B F E.
  destruct (form_sections h p req bd (map control_part xs) tail segs Hc W H)
    as (p' & log & segs' & X & T & Y); auto.
  - rewrite Q. now apply content_type_says.
  - intros I. rewrite Forall_forall in B. apply B in I. destruct I as [I _]. lia.
  - rewrite Forall_map. revert F. apply Forall_impl. intros [n d|n m kind d].
    + intros [N D]. split; [|reflexivity]. split; [|exact D]. cbn. repeat constructor; now apply disposition_ok.
    + intros (N & M & K1 & K2 & D). split; [|reflexivity]. split; [|exact D]. cbn [m_headers control_part plain_part fst].
      constructor; [now apply file_disposition_ok|]. constructor; [now apply kind_ok|constructor].
  - exists p', log, segs'. split; [exact X|]. split; [exact T|]. rewrite Y, map_map. apply map_ext_in.
    intros x I. rewrite Forall_forall in F. apply F in I. destruct x as [n d|n m kind d]; cbn [control_part].
    + destruct I as [N _]. unfold of_part, form_part, plain_part. cbn [m_headers m_data fst snd].
      now rewrite (says_parameter _ _ _ _ _ (disposition_says n N)).
    + destruct I as [N _]. unfold of_part, plain_part. cbn [m_headers m_data fst snd].
      now rewrite file_name_lost.
Qed.
