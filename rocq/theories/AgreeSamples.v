(* Sample texts of C73. *)

From Coq Require Import NArith List Bool Arith String.
From Verif Require Import Bytes Http1Model Http1Spec UtilModel UtilSpec Agree.
Import ListNotations.
Local Open Scope N_scope.
Local Open Scope list_scope.

Ltac peel :=
  match goal with
  | E : [] = ?x ++ 37 :: _ |- _ => destruct x; discriminate E
  | E : _ :: _ = ?x ++ 37 :: _ |- _ =>
      let c := fresh "c" in let Ec := fresh "Ec" in
      destruct x as [|c x]; cbn [app] in E;
      [try discriminate E; injection E as Ec; subst | injection E as Ec E; subst; peel]
  end.

Definition keep_going : handler := Handler (fun _ _ => true) (fun _ => None).
Definition pause_always : handler := Handler (fun _ _ => false) (fun _ => None).

Lemma escapes_sample : escapes_in_values (bs "a=%4a+b&c;d==").
Proof.
  intros x y E. cbn in E. peel. split; [cbn; repeat constructor|].
  exists (bs "a"), []. repeat split; auto.
Qed.
Lemma escapes_sample_error : escapes_in_values (bs "a=b&c=%4x").
Proof.
  intros x y E. cbn in E. peel. split; [cbn; repeat constructor|].
  exists (bs "a=b&c"), []. repeat split; auto.
Qed.
Lemma whole_sample : whole_escapes (bs "%41+").
Proof. intros x y E. cbn in E. peel. cbn; repeat constructor. Qed.
Lemma whole_sample_1 : whole_escapes (bs "%41=b").
Proof. intros x y E. cbn in E. peel. cbn; repeat constructor. Qed.
Lemma whole_sample_2 : whole_escapes (bs "=b").
Proof. intros x y E. cbn in E. peel. Qed.

Lemma unconditional_refuted : exists h q t1 t2 t3,
  (forall t, In t [t1; t2; t3] ->
     let '(p', log, rest, o) := feed h (set_length (init_url_encoded q) (N.of_nat (List.length t))) [t] in
     o = OFinished) /\
  query_start t1 /\ whole_escapes t1 /\ query_all t1 = ([], [EName 49], NNone) /\
  query_start t2 /\ query_all t2 = ([], [EValue 52], NNone) /\
  whole_escapes t3 /\ query_all t3 = ([], [EName 61], NNone).
Proof.
  exists (keep_going), new, (bs "%41=b"), (bs "a=%4"), (bs "=b").
  split; [intros t [<-|[<-|[<-|[]]]]; vm_compute; reflexivity|].
  split; [split; [discriminate|intros [H|H]; discriminate]|].
  split; [exact whole_sample_1|]. split; [vm_compute; reflexivity|].
  split; [split; [discriminate|intros [H|H]; discriminate]|].
  split; [vm_compute; reflexivity|]. split; [exact whole_sample_2|vm_compute; reflexivity].
Qed.
