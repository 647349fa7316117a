(* The handler of the documentation collects heads correctly: proofs. *)

From Coq Require Import NArith List Bool Arith String Lia.
From Verif Require UtilSpec UtilFacts.
From Verif Require Import Bytes ByteStream Http1Model Http1Spec Http1Protocol Http1Data Http1Wire Http1Round Http1Api
  ExampleModel ExampleSpec.
Import ListNotations.
Local Open Scope N_scope.
Local Open Scope list_scope.

Ltac bools := repeat match goal with
  | H : (_ && _) = true |- _ => apply andb_true_iff in H; destruct H
  | H : within _ _ _ = true |- _ => unfold within in H
  | H : (_ <=? _) = true |- _ => apply N.leb_le in H
  | H : (_ <=? _) = false |- _ => apply N.leb_gt in H
  | H : (_ =? _) = true |- _ => apply N.eqb_eq in H
  | H : (_ =? _) = false |- _ => apply N.eqb_neq in H
  end.

(* --------------------------------------------------------------- UTF-8 *)

Lemma utf8_sound : forall n s, (List.length s <= n)%nat -> from_utf8_ok s = true -> UtilSpec.Utf8 s.
Proof.
  induction n as [|n IH]; intros s L H; [destruct s; [constructor|cbn in L; lia]|].
  destruct s as [|a t]; [constructor|]. cbn [from_utf8_ok] in H. cbn [List.length] in L.
  destruct (a <=? 127) eqn:A; [bools; apply UtilSpec.u_1; [lia|apply IH; [lia|exact H]]|].
  destruct t as [|b t]; [discriminate|]. cbn [List.length] in L.
  destruct (within 194 223 a) eqn:B.
  { bools. apply UtilSpec.u_2; [lia|unfold UtilSpec.cont; lia|]. apply IH; [lia|assumption]. }
  destruct t as [|c t]; [discriminate|]. cbn [List.length] in L.
  destruct (a =? 224) eqn:C.
  { bools. subst a. apply UtilSpec.u_3a; [lia|unfold UtilSpec.cont; lia|]. apply IH; [lia|assumption]. }
  destruct (a =? 237) eqn:D.
  { bools. subst a. apply UtilSpec.u_3c; [lia|unfold UtilSpec.cont; lia|]. apply IH; [lia|assumption]. }
  destruct (within 225 239 a) eqn:E.
  { bools. apply UtilSpec.u_3b; [lia|unfold UtilSpec.cont; lia|unfold UtilSpec.cont; lia|]. apply IH; [lia|assumption]. }
  destruct t as [|d t]; [discriminate|]. cbn [List.length] in L.
  bools. destruct (a =? 240) eqn:F.
  { bools. subst a. apply UtilSpec.u_4a; [lia|unfold UtilSpec.cont; lia|unfold UtilSpec.cont; lia|]. apply IH; [lia|assumption]. }
  destruct (within 241 243 a) eqn:G.
  { bools. apply UtilSpec.u_4b; [lia|unfold UtilSpec.cont; lia|unfold UtilSpec.cont; lia|unfold UtilSpec.cont; lia|].
    apply IH; [lia|assumption]. }
  destruct (a =? 244) eqn:K; [|discriminate].
  bools. subst a. apply UtilSpec.u_4c; [lia|unfold UtilSpec.cont; lia|unfold UtilSpec.cont; lia|]. apply IH; [lia|assumption].
Qed.

Lemma within_true lo hi b : lo <= b <= hi -> within lo hi b = true.
Proof. intros [A B]. unfold within. apply andb_true_iff. split; apply N.leb_le; assumption. Qed.
Lemma within_false lo hi b : b < lo \/ hi < b -> within lo hi b = false.
Proof. intros H. unfold within. apply andb_false_iff. rewrite !N.leb_gt. exact H. Qed.

Lemma utf8_complete s : UtilSpec.Utf8 s -> from_utf8_ok s = true.
Proof.
  unfold UtilSpec.cont. induction 1; unfold UtilSpec.cont in *; cbn [from_utf8_ok].
  - reflexivity.
  - rewrite (proj2 (N.leb_le _ _)) by lia. exact IHUtf8.
  - rewrite (proj2 (N.leb_gt _ _)) by lia. rewrite !within_true by lia. exact IHUtf8.
  - cbn [N.leb N.eqb]. change (224 <=? 127) with false. change (within 194 223 224) with false.
    cbv iota. rewrite !within_true by lia. exact IHUtf8.
  - rewrite (proj2 (N.leb_gt _ _)) by lia. rewrite (within_false 194 223) by lia.
    rewrite (proj2 (N.eqb_neq a 224)) by lia. rewrite (proj2 (N.eqb_neq a 237)) by lia.
    rewrite !within_true by lia. exact IHUtf8.
  - change (237 <=? 127) with false. change (within 194 223 237) with false. change (237 =? 224) with false.
    change (237 =? 237) with true. cbv iota. rewrite !within_true by lia. exact IHUtf8.
  - change (240 <=? 127) with false. change (within 194 223 240) with false. change (240 =? 224) with false.
    change (240 =? 237) with false. change (within 225 239 240) with false. change (240 =? 240) with true.
    cbv iota. rewrite !within_true by lia. exact IHUtf8.
  - rewrite (proj2 (N.leb_gt _ _)) by lia. rewrite (within_false 194 223) by lia.
    rewrite (proj2 (N.eqb_neq a 224)) by lia. rewrite (proj2 (N.eqb_neq a 237)) by lia.
    rewrite (within_false 225 239) by lia. rewrite (proj2 (N.eqb_neq a 240)) by lia.
    rewrite !within_true by lia. exact IHUtf8.
  - change (244 <=? 127) with false. change (within 194 223 244) with false. change (244 =? 224) with false.
    change (244 =? 237) with false. change (within 225 239 244) with false. change (244 =? 240) with false.
    change (within 241 243 244) with false. change (244 =? 244) with true.
    cbv iota. rewrite !within_true by lia. exact IHUtf8.
Qed.

Lemma utf8_iff s : from_utf8_ok s = true <-> UtilSpec.Utf8 s.
Proof. split; [apply (utf8_sound (List.length s)); reflexivity|apply utf8_complete]. Qed.

(* ----------------------------------------------------------------- maps *)

Lemma same_string_iff a b : same_string a b = true <-> a = b.
Proof. unfold same_string. destruct (list_eq_dec N.eq_dec a b); split; congruence. Qed.

Lemma get_filter k k' m : k <> k' -> map_get k' (filter (fun x => negb (same_string k (fst x))) m) = map_get k' m.
Proof.
  intros N. induction m as [|[a v] m IH]; [reflexivity|]. cbn [filter map_get fst].
  destruct (same_string k a) eqn:E; cbn [negb].
  - apply same_string_iff in E. subst a. rewrite IH.
    destruct (same_string k' k) eqn:F; [apply same_string_iff in F; congruence|reflexivity].
  - cbn [map_get]. now rewrite IH.
Qed.

Lemma get_insert k v k' m : map_get k' (map_insert k v m) = if same_string k' k then Some v else map_get k' m.
Proof.
  unfold map_insert. cbn [map_get]. destruct (same_string k' k) eqn:E; [reflexivity|].
  apply get_filter. intros ->. unfold same_string in E. destruct (list_eq_dec N.eq_dec k' k'); congruence.
Qed.

Definition put (m : map_type) (f : header) : map_type := map_insert (field_name f) (field_value f) m.

Lemma puts_value fs : forall name,
  is_value fs name (map_get name (fold_left put fs [])).
Proof.
  intros name. induction fs as [|f fs IH] using rev_ind.
  - cbn. intros f [].
  - rewrite fold_left_app. cbn [fold_left]. unfold put at 1. rewrite get_insert.
    destruct (same_string name (field_name f)) eqn:E.
    + apply same_string_iff in E. exists fs, f, []. split; [reflexivity|]. split; [now symmetry|]. split; [reflexivity|]. intros g [].
    + assert (N : field_name f <> name).
      { intros <-. unfold same_string in E. destruct (list_eq_dec N.eq_dec (field_name f) (field_name f)); congruence. }
      destruct (map_get name (fold_left put fs [])) as [v|]; cbn [is_value] in *.
      * destruct IH as (b & g & a & -> & A & B & C). exists b, g, (a ++ [f]).
        rewrite <- app_assoc. split; [reflexivity|]. split; [exact A|]. split; [exact B|].
        intros k H. apply in_app_or in H. destruct H as [H|[<-|[]]]; auto.
      * intros g H. apply in_app_or in H. destruct H as [H|[<-|[]]]; auto.
Qed.

(* ------------------------------------------------- calls byte by byte *)

Definition on_fevent (x : head) (e : fevent) : option head :=
  match e with FByte k b => on_event x (EData k [b]) | FEv e => on_event x e end.

Fixpoint on_fevents (x : head) (l : list fevent) : option head :=
  match l with
  | [] => Some x
  | e :: l' => match on_fevent x e with Some x' => on_fevents x' l' | None => None end
  end.

Lemma on_fevents_app l : forall x l', on_fevents x (l ++ l') =
  match on_fevents x l with Some x' => on_fevents x' l' | None => None end.
Proof. induction l as [|e l IH]; intros x l'; [reflexivity|]. cbn. destruct (on_fevent x e); auto. Qed.

Lemma data_split k d : forall x b, on_event x (EData k (b :: d)) = on_fevents x (map (FByte k) (b :: d)).
Proof.
  induction d as [|c d IH]; intros x b.
  - cbn [map on_fevents on_fevent]. now destruct (on_event x (EData k [b])).
  - cbn [map]. change (FByte k c :: map (FByte k) d) with (map (FByte k) (c :: d)).
    cbn [on_fevents on_fevent].
    assert (S : on_event x (EData k (b :: c :: d)) =
                match on_event x (EData k [b]) with Some y => on_event y (EData k (c :: d)) | None => None end).
    { destruct k; cbn [on_event]; try reflexivity.
      all: unfold on_method, on_url, on_status, on_header_value, on_header_name; cbn [x_header_name x_header_value
        x_headers x_headers_finished x_initial_finished x_method x_state x_status x_status_code x_url x_version_major
        x_version_minor].
      all: rewrite <- ?app_assoc; try reflexivity.
      destruct (x_state x) eqn:T; cbn [x_header_name x_header_value
        x_headers x_headers_finished x_initial_finished x_method x_state x_status x_status_code x_url x_version_major
        x_version_minor]; rewrite ?T, <- ?app_assoc; try reflexivity.
      destruct (flush_header x) as [y|]; [|reflexivity]. cbn [x_header_name x_header_value
        x_headers x_headers_finished x_initial_finished x_method x_state x_status x_status_code x_url x_version_major
        x_version_minor]. now rewrite <- app_assoc. }
    rewrite S. destruct (on_event x (EData k [b])) as [y|]; [apply IH|reflexivity].
Qed.

Lemma events_flat l : Forall ok_event l -> forall x, on_events x l = on_fevents x (flat l).
Proof.
  induction 1 as [|e l O _ IH]; intros x; [reflexivity|].
  unfold flat. cbn [flat_map]. fold (flat l). rewrite on_fevents_app. cbn [on_events].
  assert (S : on_event x e = on_fevents x (flat1 e)).
  { destruct e; cbn [flat1 on_fevents on_fevent]; try (now destruct (on_event x _)).
    destruct d as [|b d]; [now destruct O|]. apply data_split. }
  rewrite S. destruct (on_fevents x (flat1 e)); auto.
Qed.

Lemma bytes_once k v x : v <> [] -> on_fevents x (map (FByte k) v) = on_event x (EData k v).
Proof. destruct v as [|b d]; [congruence|]. intros _. symmetry. apply data_split. Qed.

(* -------------------------------------------------------- header fields *)

(* The map with a field that has been collected but not yet put in. *)
Definition pending (n v : list byte) (m : map_type) : option map_type :=
  if negb (List.length n =? 0)%nat && negb (List.length v =? 0)%nat then
    if from_utf8_ok n && from_utf8_ok v then Some (map_insert n v m) else None
  else Some m.

Ltac sel := cbn [x_header_name x_header_value x_headers x_headers_finished x_initial_finished x_method x_state
  x_status x_status_code x_url x_version_major x_version_minor] in *.

(* Ready for the next field. *)
Definition ready (x : head) : Prop :=
  x_state x = THeaderValue \/ (x_header_name x = [] /\ x_header_value x = []).

Definition with_headers (x : head) (n v : list byte) (m : map_type) (fin : bool) (t : track) : head :=
  Head n v m fin (x_initial_finished x) (x_method x) t (x_status x) (x_status_code x) (x_url x)
       (x_version_major x) (x_version_minor x).

Lemma one_header f x : wf_header f -> ready x -> 
  on_fevents x (seen_header f) =
  match pending (x_header_name x) (x_header_value x) (x_headers x) with
  | Some m => Some (with_headers x (field_name f) (field_value f) m (x_headers_finished x) THeaderValue)
  | None => None
  end.
Proof.
  intros (N & _ & _ & V & _) R. unfold seen_header. fold (field_name f). fold (field_value f).
  assert (Nn : field_name f <> []) by (unfold field_name; destruct (h_name f); [congruence|discriminate]).
  assert (Nv : field_value f <> []).
  { unfold field_value. unfold starts_visible in V. destruct (h_value f); [tauto|discriminate]. }
  rewrite on_fevents_app, !bytes_once by assumption. cbn [on_event].
  unfold on_header_name, pending. destruct R as [R|[R1 R2]].
  - rewrite R. unfold flush_header.
    destruct (negb (List.length (x_header_name x) =? 0)%nat && negb (List.length (x_header_value x) =? 0)%nat).
    + destruct (from_utf8_ok (x_header_name x) && from_utf8_ok (x_header_value x)); [|reflexivity].
      rewrite bytes_once by assumption. reflexivity.
    + rewrite bytes_once by assumption. reflexivity.
  - rewrite R1, R2. cbn [List.length Nat.eqb negb andb app].
    destruct (x_state x) eqn:T.
    + rewrite bytes_once by assumption. cbn [on_event]. unfold on_header_value, with_headers. sel. rewrite ?R1, ?R2. reflexivity.
    + rewrite bytes_once by assumption. cbn [on_event]. unfold on_header_value, with_headers. sel. rewrite ?R1, ?R2. reflexivity.
    + unfold flush_header. rewrite R1, R2. cbn [List.length Nat.eqb negb andb app].
      rewrite bytes_once by assumption. reflexivity.
Qed.

Lemma name_utf8 f : wf_header f -> from_utf8_ok (field_name f) = true.
Proof.
  intros (_ & T & _). apply utf8_complete, UtilFacts.ascii_utf8. unfold field_name. apply Forall_map.
  eapply Forall_impl; [|exact T]. intros b H. cbv beta in *. unfold tchar in H. unfold lower_case.
  assert (B : b <= 126).
  { rewrite !orb_true_iff, !andb_true_iff, !N.leb_le in H. destruct H as [[[H|H]|H]|H]; [lia..|].
    apply existsb_exists in H. destruct H as (c & I & E). apply N.eqb_eq in E. subst c.
    assert (F : Forall (fun c => c <= 126) (bs "!#$%&'*+-.^_`|~")) by (repeat constructor; vm_compute; discriminate).
    exact (proj1 (Forall_forall _ _) F b I). }
  destruct ((65 <=? b) && (b <=? 90)) eqn:U; [bools|]; lia.
Qed.

Lemma pending_field f m : wf_header f ->
  pending (field_name f) (field_value f) m = if from_utf8_ok (field_value f) then Some (put m f) else None.
Proof.
  intros W. unfold pending. rewrite (name_utf8 f W). destruct W as (N & _ & _ & V & _).
  replace (List.length (field_name f) =? 0)%nat with false.
  2:{ unfold field_name. destruct (h_name f); [congruence|reflexivity]. }
  replace (List.length (field_value f) =? 0)%nat with false.
  2:{ unfold field_value. unfold starts_visible in V. destruct (h_value f); [tauto|reflexivity]. }
  reflexivity.
Qed.

Definition all_utf8 (fs : list header) : bool := forallb (fun f => from_utf8_ok (field_value f)) fs.

Lemma all_headers fs : Forall wf_header fs -> forall x, ready x ->
  on_fevents x (seen_headers fs) =
  match pending (x_header_name x) (x_header_value x) (x_headers x) with
  | Some m => if all_utf8 fs
              then Some (with_headers x [] [] (fold_left put fs m) true
                           (match fs with [] => x_state x | _ => THeaderValue end))
              else None
  | None => None
  end.
Proof.
  induction 1 as [|f fs W _ IH]; intros x R.
  - cbn [seen_headers flat_map app on_fevents on_fevent on_event all_utf8 forallb fold_left].
    unfold on_headers_finished, flush_header, pending, with_headers. sel.
    destruct (negb (List.length (x_header_name x) =? 0)%nat && negb (List.length (x_header_value x) =? 0)%nat); [|reflexivity].
    destruct (from_utf8_ok (x_header_name x) && from_utf8_ok (x_header_value x)); reflexivity.
  - unfold seen_headers. cbn [flat_map]. rewrite <- app_assoc. fold (seen_headers fs).
    rewrite on_fevents_app, (one_header f x W R).
    destruct (pending (x_header_name x) (x_header_value x) (x_headers x)) as [m|]; [|reflexivity].
    rewrite IH by (left; reflexivity).
    unfold with_headers at 1 2 3. sel. rewrite (pending_field f m W).
    cbn [all_utf8 forallb fold_left].
    destruct (from_utf8_ok (field_value f)); cbn [andb]; [|reflexivity].
    fold (all_utf8 fs). destruct (all_utf8 fs); [|reflexivity].
    unfold with_headers. sel. destruct fs; reflexivity.
Qed.

Lemma all_utf8_iff fs : all_utf8 fs = true <-> readable fs.
Proof.
  unfold all_utf8, readable. rewrite forallb_forall, Forall_forall.
  split; intros H f I; apply utf8_iff, H, I.
Qed.

(* ---------------------------------------------------------------- heads *)

Definition request_head (req : request) : head :=
  Head [] [] (fold_left put (q_headers req) []) true true (q_method req)
       (match q_headers req with [] => TNone | _ => THeaderValue end) [] 0 (q_url req)
       (decimal (fst (q_version req))) (decimal (snd (q_version req))).

Lemma request_collected req : wf_request req ->
  on_fevents head_new (seen_request req) = if all_utf8 (q_headers req) then Some (request_head req) else None.
Proof.
  intros (_ & M & _ & U & _ & _ & H). unfold seen_request.
  rewrite on_fevents_app, bytes_once by assumption. cbn [on_event].
  rewrite on_fevents_app, bytes_once by assumption. cbn [on_event].
  rewrite on_fevents_app. cbn [seen_version on_fevents on_fevent on_event].
  rewrite all_headers; [|exact H|right; split; reflexivity].
  unfold request_head, with_headers. cbn. destruct (all_utf8 (q_headers req)); reflexivity.
Qed.

Definition response_head (res : response) : head :=
  Head [] [] (fold_left put (r_headers res) []) true true []
       (match r_headers res with [] => TNone | _ => THeaderValue end) (r_reason res) (decimal (r_code res)) []
       (decimal (fst (r_version res))) (decimal (snd (r_version res))).

Lemma response_collected res : wf_response res ->
  on_fevents head_new (seen_response res) = if all_utf8 (r_headers res) then Some (response_head res) else None.
Proof.
  intros (_ & _ & _ & _ & R & _ & H). unfold seen_response.
  rewrite on_fevents_app. cbn [seen_version on_fevents on_fevent on_event].
  rewrite on_fevents_app, bytes_once by assumption. cbn [on_event].
  rewrite on_fevents_app. cbn [on_fevents on_fevent on_event].
  rewrite all_headers; [|exact H|right; split; reflexivity].
  unfold response_head, with_headers. cbn. destruct (all_utf8 (r_headers res)); reflexivity.
Qed.

Lemma log_collected h p segs p' log rest o : feed h p segs = (p', log, rest, o) ->
  on_events head_new log = on_fevents head_new (flat log).
Proof.
  intros F. destruct (client_data _ _ _ _ _ _ _ _ _ F) as (x & -> & O).
  exact (events_flat x O head_new).
Qed.

Lemma example_request h q req tail segs :
  wf_request req -> List.concat segs = render_request req ++ tail ->
  hd 0 (q_method req) <> 72 \/ (9 <= List.length (strip (hd [] segs)))%nat ->
  exists p' log, feed h (init_head q) segs = (p', log, tail, OFinished) /\
    (readable (q_headers req) -> exists x, on_events head_new log = Some x /\ holds_request req x) /\
    (~ readable (q_headers req) -> on_events head_new log = None).
Proof.
  intros W E M. destruct (request_round h q req tail segs W E M) as (p' & log & F & S).
  exists p', log. split; [exact F|]. rewrite (log_collected _ _ _ _ _ _ _ F), S, (request_collected req W).
  rewrite <- all_utf8_iff. destruct (all_utf8 (q_headers req)).
  - split; [|congruence]. intros _. exists (request_head req). split; [reflexivity|].
    unfold holds_request, request_head. sel.
    split. { unfold is_request. sel. destruct W as (_ & N & _). destruct (q_method req); [congruence|reflexivity]. }
    repeat (split; [reflexivity|]). apply puts_value.
  - split; [congruence|reflexivity].
Qed.

Lemma example_response h q res tail segs :
  wf_response res -> List.concat segs = render_response res ++ tail ->
  exists p' log, feed h (init_head q) segs = (p', log, tail, OFinished) /\
    (readable (r_headers res) -> exists x, on_events head_new log = Some x /\ holds_response res x) /\
    (~ readable (r_headers res) -> on_events head_new log = None).
Proof.
  intros W E. destruct (response_round h q res tail segs W E) as (p' & log & F & S).
  exists p', log. split; [exact F|]. rewrite (log_collected _ _ _ _ _ _ _ F), S, (response_collected res W).
  rewrite <- all_utf8_iff. destruct (all_utf8 (r_headers res)).
  - split; [|congruence]. intros _. exists (response_head res). split; [reflexivity|].
    unfold holds_response, response_head. sel. repeat (split; [reflexivity|]). apply puts_value.
  - split; [congruence|reflexivity].
Qed.

(* A parser just made, as in the documentation. *)
Lemma new_same h segs p' log tail b s :
  List.concat segs = b :: s -> ~ In b [13; 10; 9; 32] -> hd [] segs <> [] ->
  hok (List.concat segs) = true \/ (9 <= List.length (hd [] segs))%nat ->
  feed h (init_head new) segs = (p', log, tail, OFinished) ->
  exists p1 log1, feed h new segs = (p1, log1, tail, OFinished) /\ flat log1 = flat log.
Proof.
  intros E B N H F. assert (NE : segs <> []) by (intros ->; apply N; reflexivity).
  pose proof (new_like_init new h h segs segs b s NE eq_refl N E B
    (match H with or_introl a => or_introl a | or_intror a => or_intror (conj a a) end)) as A.
  rewrite F in A. destruct (feed h new segs) as [[[p1 l1] r1] o1]. cbn [alike] in A.
  destruct o1; try contradiction. destruct A as (A & _ & ->). exists p1, l1. split; [reflexivity|exact A].
Qed.

Lemma example_request_new h req tail segs :
  wf_request req -> q_blank req = [] -> List.concat segs = render_request req ++ tail -> hd [] segs <> [] ->
  hd 0 (q_method req) <> 72 \/ (9 <= List.length (hd [] segs))%nat ->
  exists p' log, feed h new segs = (p', log, tail, OFinished) /\
    (readable (q_headers req) -> exists x, on_events head_new log = Some x /\ holds_request req x) /\
    (~ readable (q_headers req) -> on_events head_new log = None).
Proof.
  intros W Z E N M.
  destruct (q_method req) as [|b m] eqn:Q; [destruct W as (_ & W & _); congruence|].
  assert (B : 65 <= b <= 90).
  { destruct W as (_ & _ & W & _). rewrite Q in W. now inversion W. }
  assert (E' : exists s, List.concat segs = b :: s).
  { rewrite E. unfold render_request. rewrite Z, Q. cbn [app]. eexists. reflexivity. }
  destruct E' as [s E'].
  assert (Nb : ~ In b [13; 10; 9; 32]) by (cbn [In]; lia).
  assert (Hs : strip (hd [] segs) = hd [] segs).
  { destruct segs as [|[|c sg] more]; [reflexivity|reflexivity|]. cbn [hd]. cbn in E'. injection E' as -> _.
    cbn [strip]. rewrite !(proj2 (N.eqb_neq b _)) by lia. reflexivity. }
  assert (HO : hok (List.concat segs) = true \/ (9 <= List.length (hd [] segs))%nat).
  { destruct M as [M|M]; [left|now right]. rewrite E'. cbn [hok]. cbn [hd] in M.
    rewrite (proj2 (N.eqb_neq b 72)) by exact M. reflexivity. }
  destruct (example_request h new req tail segs W E) as (p' & log & F & R1 & R2).
  { rewrite Q, Hs. exact M. }
  destruct (new_same h segs p' log tail b s E' Nb N HO F) as (p1 & log1 & F1 & S).
  exists p1, log1. split; [exact F1|].
  rewrite (log_collected _ _ _ _ _ _ _ F1), S, <- (log_collected _ _ _ _ _ _ _ F). split; assumption.
Qed.

Lemma example_response_new h res tail segs :
  wf_response res -> r_blank res = [] -> List.concat segs = render_response res ++ tail -> hd [] segs <> [] ->
  exists p' log, feed h new segs = (p', log, tail, OFinished) /\
    (readable (r_headers res) -> exists x, on_events head_new log = Some x /\ holds_response res x) /\
    (~ readable (r_headers res) -> on_events head_new log = None).
Proof.
  intros W Z E N.
  assert (E' : exists s, List.concat segs = bs "HTTP/" ++ s).
  { rewrite E. unfold render_response, render_version. rewrite Z. cbn [app]. rewrite <- !app_assoc. eexists. reflexivity. }
  destruct E' as [s E'].
  destruct (example_response h new res tail segs W E) as (p' & log & F & R1 & R2).
  assert (HO : hok (List.concat segs) = true \/ (9 <= List.length (hd [] segs))%nat).
  { left. rewrite E'. destruct s; reflexivity. }
  assert (Nb : ~ In 72 [13; 10; 9; 32]) by (cbn [In]; lia).
  destruct (new_same h segs p' log tail 72 (bs "TTP/" ++ s) E' Nb N HO F) as (p1 & log1 & F1 & S).
  exists p1, log1. split; [exact F1|].
  rewrite (log_collected _ _ _ _ _ _ _ F1), S, <- (log_collected _ _ _ _ _ _ _ F). split; assumption.
Qed.

(* A line without a name. *)
Lemma example_nameless : exists s log x,
  s = bs "GET / HTTP/1.1" ++ [13; 10] ++ bs "A: x" ++ [13; 10] ++ bs ": y" ++ [13; 10; 13; 10] /\
  (exists p, feed yes new [s] = (p, log, [], OFinished)) /\ on_events head_new log = Some x /\
  map_get (bs "a") (x_headers x) = Some (bs "xy").
Proof.
  eexists. exists [EData KMethod (bs "GET"); EData KUrl (bs "/"); EVersion 1 1; EInitialFinished;
    EData KHeaderName (bs "a"); EData KHeaderValue (bs "x"); EData KHeaderValue (bs "y"); EHeadersFinished].
  eexists. split; [reflexivity|]. split; [eexists; vm_compute; reflexivity|].
  split; vm_compute; reflexivity.
Qed.

(* ------------------------------------------------------------ any calls *)

Lemma flush_keeps x y : flush_header x = Some y ->
  x_method y = x_method x /\ x_url y = x_url x /\ x_status y = x_status x /\
  (x_version_major y, x_version_minor y) = (x_version_major x, x_version_minor x) /\
  x_status_code y = x_status_code x /\ x_initial_finished y = x_initial_finished x /\
  x_headers_finished y = x_headers_finished x.
Proof.
  unfold flush_header. destruct (negb _ && negb _); [destruct (from_utf8_ok _ && from_utf8_ok _); [|discriminate]|];
    intros [= <-]; repeat split.
Qed.

Definition step_of (e : event) (x y : head) : Prop :=
  x_method y = x_method x ++ data_of KMethod [e] /\ x_url y = x_url x ++ data_of KUrl [e] /\
  x_status y = x_status x ++ data_of KStatus [e] /\
  (x_version_major y, x_version_minor y) =
    match e with EVersion a b => (a, b) | _ => (x_version_major x, x_version_minor x) end /\
  x_status_code y = match e with EStatusCode c => c | _ => x_status_code x end /\
  (x_initial_finished y = true <-> x_initial_finished x = true \/ EInitialFinished = e) /\
  (x_headers_finished y = true <-> x_headers_finished x = true \/ EHeadersFinished = e).

Lemma or_no (P Q : Prop) : ~ Q -> (P <-> P \/ Q).
Proof. tauto. Qed.
Lemma or_yes (P Q : Prop) : P -> Q -> (P <-> P \/ Q).
Proof. tauto. Qed.

Lemma event_step x e y : on_event x e = Some y -> step_of e x y.
Proof.
  unfold step_of, on_event.
  destruct e as [k d|a b|c| | | | | | | | | | ]; try destruct k; cbn -[app]; intros E; rewrite ?app_nil_r;
    try (injection E as <-; cbn; repeat split; try apply or_no; try discriminate; tauto).
  - (* header name *)
    unfold on_header_name in E. destruct (x_state x); try (injection E as <-; cbn; repeat split; try apply or_no; try discriminate; tauto).
    destruct (flush_header x) as [z|] eqn:F; [|discriminate]. apply flush_keeps in F.
    destruct F as (F1 & F2 & F3 & F4 & F5 & F6 & F7). injection E as <-. cbn. rewrite F1, F2, F3, F4, F5, F6, F7.
    repeat split; try apply or_no; try discriminate; tauto.
  - (* headers finished *)
    unfold on_headers_finished in E. apply flush_keeps in E. cbn in E.
    destruct E as (F1 & F2 & F3 & F4 & F5 & F6 & F7). rewrite F1, F2, F3, F4, F5, F6, F7.
    repeat split; try apply or_no; try discriminate; tauto.
Qed.

Lemma data_of_cons k e l : data_of k (e :: l) = data_of k [e] ++ data_of k l.
Proof. cbn [data_of]. destruct e; try reflexivity. destruct (dkind_dec k k0); [now rewrite app_nil_r|reflexivity]. Qed.

Lemma events_steps l : forall x y, on_events x l = Some y ->
  x_method y = x_method x ++ data_of KMethod l /\ x_url y = x_url x ++ data_of KUrl l /\
  x_status y = x_status x ++ data_of KStatus l /\
  (x_version_major y, x_version_minor y) =
    fold_left (fun v e => match e with EVersion major minor => (major, minor) | _ => v end) l
              (x_version_major x, x_version_minor x) /\
  x_status_code y = fold_left (fun v e => match e with EStatusCode c => c | _ => v end) l (x_status_code x) /\
  (x_initial_finished y = true <-> x_initial_finished x = true \/ In EInitialFinished l) /\
  (x_headers_finished y = true <-> x_headers_finished x = true \/ In EHeadersFinished l).
Proof.
  induction l as [|e l IH]; intros x y E; cbn [on_events] in E.
  - injection E as <-. cbn [data_of fold_left In]. rewrite !app_nil_r. repeat split; tauto.
  - destruct (on_event x e) as [z|] eqn:S; [|discriminate]. apply event_step in S.
    destruct S as (S1 & S2 & S3 & S4 & S5 & S6 & S7).
    destruct (IH _ _ E) as (I1 & I2 & I3 & I4 & I5 & I6 & I7).
    rewrite (data_of_cons KMethod), (data_of_cons KUrl), (data_of_cons KStatus).
    rewrite I1, I2, I3, I4, I5, I6, I7, S1, S2, S3, S4, S5, S6, S7, <- !app_assoc. cbn [fold_left In].
    repeat split; try (destruct e; reflexivity); intuition congruence.
Qed.

Lemma example_so_far log x : on_events head_new log = Some x -> holds_so_far log x.
Proof.
  intros E. apply events_steps in E. cbn [head_new x_method x_url x_status x_version_major x_version_minor
    x_status_code x_initial_finished x_headers_finished app] in E.
  destruct E as (I1 & I2 & I3 & I4 & I5 & I6 & I7). unfold holds_so_far.
  split; [exact I1|]. split; [exact I2|]. split; [exact I3|]. split; [exact I4|]. split; [exact I5|].
  split; [|split; [rewrite I6|rewrite I7]; split; [intros [X|X]; [discriminate|exact X]|now right| | ]].
  - unfold is_request. rewrite I1. destruct (data_of KMethod log); cbn; split; intros X; congruence.
  - intros [X|X]; [discriminate|exact X].
  - now right.
Qed.
