(* Sample frames for the examples beside the HTTP/2 theorems, and a way to check
   the hypotheses of the theorems for them by computation. *)

From Coq Require Import NArith List Bool Arith String Lia.
From Verif Require Import Bytes Http2Model Http2Spec.
Import ListNotations.
Local Open Scope N_scope.

Definition within (a k b : nat) : bool := (a <? k)%nat && (k <? b)%nat.

Definition fragile1b (b : body) (k : nat) : bool :=
  within 5 k 9 ||
  match b with
  | BGoAway _ _ _ _ => within 9 k 13
  | BSettings _ _ => within 11 k 15
  | _ => false
  end.

Fixpoint fragileb (fs : list frame) (k : nat) : bool :=
  match fs with
  | [] => false
  | f :: fs' =>
      if (k <? List.length (render f))%nat then fragile1b (f_body f) k
      else fragileb fs' (k - List.length (render f))
  end.

Lemma within_spec a k b : (a < k < b)%nat -> within a k b = true.
Proof.
  intros [H1 H2]. unfold within. apply andb_true_intro. split; now apply Nat.ltb_lt.
Qed.

Lemma fragileb_spec fs : forall k, fragile fs k -> fragileb fs k = true.
Proof.
  induction fs as [|f fs IH]; intros k; cbn [fragile fragileb]; [tauto|].
  destruct (k <? _)%nat; [|apply IH]. unfold fragile1, fragile1b. intros [H|H].
  - now rewrite within_spec.
  - destruct (f_body f); try contradiction; rewrite (within_spec _ _ _ H); apply orb_true_r.
Qed.

Lemma safe_check fs segs :
  forallb (fun n => negb (fragileb fs (List.length (List.concat (firstn n segs)))))
          (seq 0 (S (List.length segs))) = true ->
  safe_cuts fs segs.
Proof.
  intros H b a E F. apply fragileb_spec in F. rewrite forallb_forall in H.
  specialize (H (List.length b)). rewrite E in H.
  rewrite firstn_app, firstn_all, Nat.sub_diag, firstn_O, app_nil_r, F in H.
  discriminate H. apply in_seq. rewrite app_length. lia.
Qed.

(* The same for raw frames. *)
Definition fragile_rawb (t : N) (k : nat) : bool := within 5 k 9 || ((t =? 7) && within 9 k 13).

Lemma safe_check_raw t (segs : list (list byte)) :
  forallb (fun n => negb (fragile_rawb t (List.length (List.concat (firstn n segs)))))
          (seq 0 (S (List.length segs))) = true ->
  forall before after, segs = before ++ after ->
     ~ fragile_raw t (List.length (List.concat before)).
Proof.
  intros H b a E F.
  assert (fragile_rawb t (List.length (List.concat b)) = true) as F'.
  { unfold fragile_rawb. destruct F as [F|[-> F]]; rewrite (within_spec _ _ _ F); [reflexivity|].
    apply orb_true_r. }
  rewrite forallb_forall in H. specialize (H (List.length b)). rewrite E in H.
  rewrite firstn_app, firstn_all, Nat.sub_diag, firstn_O, app_nil_r, F' in H.
  discriminate H. apply in_seq. rewrite app_length. lia.
Qed.

(* A padded HEADERS frame with priority. *)
Definition sample_headers : frame :=
  Frame 45 false 305419896
        (BHeaders (Some [0; 0; 0]) (Some (Prio true 66051 200)) (bs "fragment")).
(* A GOAWAY frame with debug data. *)
Definition sample_go_away : frame :=
  Frame 0 true 0 (BGoAway true 2147483647 4027576335 (bs "debug")).
(* One setting. *)
Definition sample_settings : frame := Frame 0 false 0 (BSettings 4 65535).
(* DATA with padding. *)
Definition sample_data : frame := Frame 9 false 5 (BData (Some [1; 2]) (bs "data")).
(* DATA without contents. *)
Definition sample_empty : frame := Frame 1 false 7 (BData None []).
(* PUSH_PROMISE *)
Definition sample_promise : frame := Frame 4 false 7 (BPushPromise None false 8 (bs "f")).
(* An unknown type. *)
Definition sample_unknown : frame := Frame 255 false 2147483647 (BUnknown 200 (Some []) (bs "?")).

Definition sample_frames : list frame :=
  [sample_settings; sample_headers; sample_empty; sample_data; sample_promise; sample_unknown;
   Frame 0 false 3 (BPriority (Prio false 1 15)); Frame 0 false 3 (BRstStream 8);
   Frame 0 false 0 (BPing (bs "12345678")); Frame 0 false 1 (BWindowUpdate true 70000);
   Frame 4 false 1 (BContinuation (bs "more")); sample_go_away].

(* Cut a list into pieces of the given sizes. *)
Fixpoint cut (sizes : list nat) (s : list byte) : list (list byte) :=
  match sizes with
  | [] => [s]
  | n :: more => firstn n s :: cut more (skipn n s)
  end.

(* Cuts that avoid the fragile places of the sample frames. *)
Definition sample_sizes : list nat := [1; 1; 1; 2; 4; 2; 4; 0; 3; 2; 4; 3; 1; 1; 6; 6; 9]%nat.
Definition sample_pieces : list (list byte) := cut sample_sizes (render_all sample_frames).

(* The numbers in a frame are in range: *)
Ltac wf_frames :=
  repeat (apply Forall_cons; [|]); try apply Forall_nil;
  match goal with
  | |- wf_frame ?x =>
      let y := eval hnf in x in change x with y; unfold wf_frame; cbn [f_flags f_stream f_body wf_body]; unfold wf_pad, wf_prio;
      cbn [is_some pr_stream pr_weight];
      repeat match goal with |- _ /\ _ => split end;
      try exact I; try reflexivity; try discriminate; try (cbn; lia);
      vm_compute; repeat (apply Forall_cons; [reflexivity|]); apply Forall_nil
  end.
