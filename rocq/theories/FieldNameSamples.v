(* Samples for C93. *)

From Coq Require Import NArith List Bool Arith String Lia.
From Verif Require Import Bytes Http1Model Http1Spec Http1Protocol Http1Wire Http1Samples FormSamples ValueSpec ValueSamples.
Import ListNotations.
Local Open Scope N_scope.
Local Open Scope list_scope.

Definition parse_head (s : list (list byte)) : ending := snd (feed yes (init_head new) s).

Lemma nameless_accepted : exists req v,
  wf_request req /\ taken v /\
  let '(_, log, rest, o) := feed yes (init_head new) [render_request (add_field req (Header [] [32] v []))] in
  o = OFinished /\ rest = [] /\
  flat log = seen_request (add_field req (Header [] [32] v [])) /\
  seen_header (Header [] [32] v []) = map (FByte KHeaderValue) v.
Proof.
  exists a_get, (bs "v"). split; [exact a_get_ok|]. split; [split; reflexivity|]. vm_compute. repeat split.
Qed.
