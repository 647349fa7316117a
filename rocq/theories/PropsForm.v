(* The parser and FieldIterator together receive forms: C83.
   Vocabulary: receive_form, form_of, says, content_type, form_part of FormSpec.v,
   render_request, render_multipart of Http1Wire.v, work of Http1Program.v. *)

From Coq Require Import NArith List Bool Arith String.
From Verif Require Import Bytes Http1Model Http1Spec Http1Wire Http1Program UtilModel UtilSpec
  FormSpec FormSamples FormFacts FormUpload.
Import ListNotations.
Local Open Scope N_scope.
Local Open Scope list_scope.

(* Of a form as user agents write it, in any segmentation and on a parser with any
   past, the program gets back every field name and every value, in order, and
   what comes behind the form is left unread. *)
Theorem C83_form_received : forall h p req hs1 hs2 bd fields tail segs,
  (forall l, h_clen h l = None) ->
  wf_request req -> hd 0 (q_method req) <> 72 ->
  q_headers req = hs1 ++ content_type bd :: hs2 ->
  (forall f, In f hs1 -> map lower_case (h_name f) <> bs "content-type") ->
  bd <> [] -> (List.length bd <= 70)%nat -> Forall boundary_byte bd ->
  Forall (fun x => Forall name_byte (fst x) /\ tame (snd x) = true) fields ->
  List.concat segs = render_request req ++ render_multipart bd (map form_part fields) ++ tail ->
  exists p' log segs', work 2 h receive_form p [] segs = (p', log, segs', OFinished) /\
    List.concat segs' = tail /\ form_of (flat log) = map (fun x => (Some (fst x), snd x)) fields.
Proof. exact form_as_written. Qed.
Print Assumptions C83_form_received.

Example C83_form_received_case :
  wf_request sample_request /\ hd 0 (q_method sample_request) <> 72 /\
  (exists hs1 hs2, q_headers sample_request = hs1 ++ content_type (bs "xYz") :: hs2 /\
     forall f, In f hs1 -> map lower_case (h_name f) <> bs "content-type") /\
  Forall boundary_byte (bs "xYz") /\
  Forall (fun x => Forall name_byte (fst x) /\ tame (snd x) = true) sample_fields /\
  (let '(_, log, segs, o) := work 2 yes receive_form new [] (cut 7 30 (sample_form ++ bs "GET")) in
   (form_of (flat log), List.concat segs, o)) =
  (map (fun x => (Some (fst x), snd x)) sample_fields, bs "GET", OFinished).
Proof.
  assert (B : forall l, forallb (fun b => (33 <=? b) && (b <=? 126) && negb (b =? 34) && negb (b =? 59)) l = true ->
    Forall boundary_byte l).
  { intros l H. rewrite forallb_forall in H. apply Forall_forall. intros b I. apply H in I.
    rewrite !andb_true_iff, !negb_true_iff, !N.leb_le, !N.eqb_neq in I. unfold boundary_byte. tauto. }
  assert (N : forall l, forallb (fun b => (32 <=? b) && (b <=? 126)) l = true -> Forall name_byte l).
  { intros l H. rewrite forallb_forall in H. apply Forall_forall. intros b I. apply H in I.
    rewrite andb_true_iff, !N.leb_le in I. right. left. exact I. }
  split; [|split; [discriminate|split; [|split; [|split]]]].
  - unfold wf_request. cbn. repeat (split || constructor); try discriminate; try reflexivity.
  - exists [Header (bs "Host") [32] (bs "example.org") []], [Header (bs "Accept") [] (bs "*/*") []].
    split; [reflexivity|]. intros f [<-|[]]. vm_compute. discriminate.
  - apply B. reflexivity.
  - unfold sample_fields.
    repeat (apply Forall_cons; [split; [apply N|]; reflexivity|]). apply Forall_nil.
  - vm_compute. reflexivity.
Qed.

(* The same of any way to write the parameters that FieldIterator accepts, and of
   any further header fields of the parts. *)
Theorem C83_parameters : forall h p req bd ps tail segs names,
  (forall l, h_clen h l = None) ->
  wf_request req -> hd 0 (q_method req) <> 72 ->
  says (q_headers req) "content-type" "boundary" bd -> (List.length bd <= 70)%nat -> ~ In 13 bd ->
  Forall (fun x => wf_part x /\ m_answer x = None) ps ->
  Forall2 (fun x n => says (m_headers x) "content-disposition" "name" n) ps names ->
  List.concat segs = render_request req ++ render_multipart bd ps ++ tail ->
  exists p' log segs', work 2 h receive_form p [] segs = (p', log, segs', OFinished) /\
    List.concat segs' = tail /\ form_of (flat log) = combine (map Some names) (map m_data ps).
Proof. exact form_received. Qed.
Print Assumptions C83_parameters.

Example C83_parameters_case :
  says [Header (bs "Content-Type") [] (bs "multipart/form-data; boundary=" ++ [34] ++ bs "a b" ++ [34]) []]
       "content-type" "boundary" (bs "a b") /\
  (let '(_, log, _, o) := work 2 yes receive_form new []
     [render_request (Request [] (bs "POST") (bs "/") (bs "1", bs "1")
        [Header (bs "Content-Type") [] (bs "multipart/form-data; boundary=" ++ [34] ++ bs "a b" ++ [34]) []]) ++
      render_multipart (bs "a b") [plain_part ([Header (bs "Content-Type") [] (bs "text/plain") [];
         Header (bs "Content-Disposition") [] (bs "form-data;NAME=k") []], bs "v")]] in
   (form_of (flat log), o)) = ([(Some (bs "k"), bs "v")], OFinished).
Proof.
  split; [|vm_compute; reflexivity].
  exists (bs "multipart/form-data" ++ 59 :: ([32] ++ bs "boundary" ++ 61 :: [] ++ 34 :: bs "a b" ++ 34 :: [])),
    [(bs "multipart/form-data", None); (bs "boundary", Some (bs "a b"))].
  split; [reflexivity|]. split; [|reflexivity].
  apply (f_cons true 59 (bs "multipart/form-data") (bs "multipart/form-data", None)).
  - apply (ff_name true 59 [] (bs "multipart/form-data")); [constructor|]. now apply UtilIter.name_check.
  - apply f_last. apply (fl_quoted true 59 [32] (bs "boundary") [] (bs "a b") (bs "a b") []).
    + repeat constructor.
    + now apply UtilIter.name_check.
    + constructor.
    + repeat constructor; try discriminate; unfold value_byte; right; left; now split.
    + constructor.
Qed.

(* Uploaded files are not among them: in the header field of RFC 7578,
   form-data; name="a"; filename="b", the first quoted value is not the last, and
   FieldIterator stops there.  The name is lost. *)
Theorem C83_file_upload_refuted : exists req bd n m d,
  wf_request req /\ says (q_headers req) "content-type" "boundary" bd /\
  let '(_, log, _, o) := work 2 yes receive_form new []
    [render_request req ++ render_multipart bd [plain_part ([file_disposition n m], d)]] in
  o = OFinished /\ n <> [] /\ form_of (flat log) = [(None, d)].
Proof. exact file_upload_refuted. Qed.
Print Assumptions C83_file_upload_refuted.

(* So it is with every form that has files in it: the fields are received with their
   names, the contents of the files are received, and no file has a name. *)
Theorem C83_files : forall h p req hs1 hs2 bd xs tail segs,
  (forall l, h_clen h l = None) ->
  wf_request req -> hd 0 (q_method req) <> 72 ->
  q_headers req = hs1 ++ content_type bd :: hs2 ->
  (forall f, In f hs1 -> map lower_case (h_name f) <> bs "content-type") ->
  bd <> [] -> (List.length bd <= 70)%nat -> Forall boundary_byte bd ->
  Forall wf_control xs ->
  List.concat segs = render_request req ++ render_multipart bd (map control_part xs) ++ tail ->
  exists p' log segs', work 2 h receive_form p [] segs = (p', log, segs', OFinished) /\
    List.concat segs' = tail /\
    form_of (flat log) = map (fun x => match x with Field n d => (Some n, d) | File _ _ _ d => (None, d) end) xs.
Proof. exact files_received. Qed.
Print Assumptions C83_files.

Example C83_files_case :
  Forall wf_control sample_controls /\
  (let '(_, log, segs, o) := work 2 yes receive_form new []
     (cut 7 30 (render_request sample_request ++ render_multipart (bs "xYz") (map control_part sample_controls) ++ bs "GET")) in
   (form_of (flat log), List.concat segs, o)) =
  ([(Some (bs "user"), bs "Ann"); (None, [137; 80; 78; 71; 13; 78; 10; 0; 255]); (Some (bs "end"), [])], bs "GET", OFinished).
Proof.
  assert (N : forall l, forallb (fun b => (32 <=? b) && (b <=? 126)) l = true -> Forall name_byte l).
  { intros l H. rewrite forallb_forall in H. apply Forall_forall. intros b I. apply H in I.
    rewrite andb_true_iff, !N.leb_le in I. right. left. exact I. }
  split; [|vm_compute; reflexivity].
  apply Forall_cons; [split; [apply N|]; reflexivity|].
  apply Forall_cons; [|apply Forall_cons; [split; [apply N|]; reflexivity|apply Forall_nil]].
  split; [now apply N|]. split; [now apply N|]. split; [discriminate|]. split; [|reflexivity].
  repeat constructor; discriminate.
Qed.
