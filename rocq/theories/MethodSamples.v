(* Samples for C89. *)

From Coq Require Import NArith List Bool Arith String Lia.
From Verif Require Import Bytes Http1Model Http1Spec Http1Protocol Http1Wire ValueSamples MethodSpec.
Import ListNotations.
Local Open Scope N_scope.
Local Open Scope list_scope.

Definition token (m : list byte) : Prop := m <> [] /\ Forall (fun c => tchar c = true) m.

Lemma search_refused : exists m1 m2, token m1 /\ token m2 /\
  m1 = bs "M-SEARCH" /\ m2 = bs "get" /\
  map (fun m => snd (feed yes (init_head new) [render_request (with_method a_get m)])) [m1; m2] =
    [OError (ErMethod 45); OError (ErMethod 103)].
Proof.
  exists (bs "M-SEARCH"), (bs "get").
  split; [split; [discriminate|repeat constructor]|]. split; [split; [discriminate|repeat constructor]|].
  split; [reflexivity|]. split; [reflexivity|]. vm_compute. reflexivity.
Qed.

Lemma search_token : token (bs "M-SEARCH").
Proof. split; [discriminate|repeat constructor]. Qed.
