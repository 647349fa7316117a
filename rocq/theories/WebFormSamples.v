(* Forms for the examples of C84. *)

From Coq Require Import NArith List Bool Arith String.
From Verif Require Import Bytes Http1Model Http1Spec Http1Wire Http1Program FormSpec WebFormSpec.
Import ListNotations.
Local Open Scope N_scope.
Local Open Scope list_scope.

Definition web_fields : list pair :=
  [(bs "user name", bs "Ann & Bob"); (bs "e", []); (bs "x*", [195; 164; 10; 0; 255])].
(* The second name is written as b%5B%5D. *)
Definition odd_fields : list pair := [(bs "a", bs "1"); (bs "b[]", bs "2"); (bs "c", bs "3")].

Definition post_request : request :=
  Request [] (bs "POST") (bs "/form") (bs "1", bs "1")
    [Header (bs "Host") [32] (bs "example.org") []; Header (bs "CONTENT-Length") [32] (bs "043") []].

Definition get_request (xs : list pair) : request :=
  Request [] (bs "GET") (bs "/form?" ++ form_text xs) (bs "1", bs "1")
    [Header (bs "Host") [32] (bs "example.org") []].

Definition octets_check (xs : list pair) : bool :=
  forallb (fun x => forallb (fun b => b <? 256) (fst x) && forallb (fun b => b <? 256) (snd x)) xs.
Lemma octets_checked xs : octets_check xs = true ->
  Forall (fun x => Forall (fun b : byte => b < 256) (fst x) /\ Forall (fun b : byte => b < 256) (snd x)) xs.
Proof.
  intros H. apply Forall_forall. intros x I. unfold octets_check in H. rewrite forallb_forall in H. apply H in I.
  apply andb_true_iff in I. destruct I as [A B]. rewrite forallb_forall in A, B.
  split; apply Forall_forall; intros b J; apply N.ltb_lt; auto.
Qed.

Definition visible_check (t : list byte) : bool := forallb visible_byte t.
Lemma get_request_ok xs : visible_check (form_text xs) = true -> wf_request (get_request xs).
Proof.
  intros V. unfold visible_check in V. rewrite forallb_forall in V.
  unfold wf_request, get_request. cbn [q_blank q_method q_url q_version q_headers].
  split; [constructor|]. split; [discriminate|]. split; [repeat constructor; discriminate|].
  split; [discriminate|]. split.
  - apply Forall_app. split; [repeat constructor|]. apply Forall_forall. exact V.
  - split; [cbn; repeat (split || constructor); discriminate|].
    repeat (constructor; cbn); try discriminate; try reflexivity; repeat constructor; cbn; reflexivity.
Qed.

Lemma post_request_ok : wf_request post_request.
Proof. unfold wf_request. cbn. repeat (split || constructor); try discriminate; try reflexivity. Qed.

Lemma get_incomplete : exists req path xs,
  wf_request req /\ hd 0 (q_method req) <> 72 /\ q_url req = path ++ [63] ++ form_text xs /\ ~ In 63 path /\
  Forall (fun x => Forall (fun b : byte => b < 256) (fst x) /\ Forall (fun b : byte => b < 256) (snd x)) xs /\
  Forall (fun x => fst x <> []) xs /\
  let '(_, log, _, o) := work 2 yes receive_get new [] [render_request req] in
  o = OFinished /\ url_pairs (flat log) = [hd ([], []) xs] /\ (1 < List.length xs)%nat.
Proof.
  exists (get_request odd_fields), (bs "/form"), odd_fields.
  split; [apply get_request_ok; reflexivity|]. split; [discriminate|]. split; [reflexivity|].
  split; [intros I; cbn in I; repeat (destruct I as [I|I]; [discriminate I|]); exact I|].
  split; [apply octets_checked; reflexivity|].
  split; [repeat (constructor; [discriminate|]); constructor|].
  vm_compute. repeat split. repeat constructor.
Qed.
