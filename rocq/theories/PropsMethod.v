(* Which methods are accepted: C89.  Vocabulary: with_method, capital of MethodSpec.v,
   requests of Http1Wire.v. *)

From Coq Require Import NArith List Bool Arith String.
From Verif Require Import Bytes Http1Model Http1Spec Http1Protocol Http1Wire FormSamples ValueSamples
  MethodSpec MethodFacts MethodSamples.
Import ListNotations.
Local Open Scope N_scope.
Local Open Scope list_scope.

(* Methods are tokens (RFC 7230, 3.1.1); M-SEARCH is a registered one. *)
Theorem C89_methods_refuted : exists m1 m2, token m1 /\ token m2 /\
  m1 = bs "M-SEARCH" /\ m2 = bs "get" /\
  map (fun m => snd (feed yes (init_head new) [render_request (with_method a_get m)])) [m1; m2] =
    [OError (ErMethod 45); OError (ErMethod 103)].
Proof. exact search_refused. Qed.
Print Assumptions C89_methods_refuted.

(* In every case: a request is understood if its method consists of capital letters, and
   ends in an error at the first other byte otherwise, however it is cut.  The condition on
   methods that begin with H is that of C63. *)
Theorem C89_methods : forall h q req m tail segs,
  wf_request req -> m <> [] -> Forall (fun c => tchar c = true) m ->
  hd 0 m <> 72 \/ (9 <= List.length (strip (hd [] segs)))%nat ->
  List.concat segs = render_request (with_method req m) ++ tail ->
  exists p' log rest o, feed h (init_head q) segs = (p', log, rest, o) /\
    (Forall capital m /\ o = OFinished /\ rest = tail /\ flat log = seen_request (with_method req m) \/
     exists u b v, m = u ++ b :: v /\ Forall capital u /\ ~ capital b /\ o = OError (ErMethod b)).
Proof. exact method_taken. Qed.
Print Assumptions C89_methods.

Example C89_methods_case :
  wf_request a_get /\ token (bs "M-SEARCH") /\
  map (fun m => map (fun k => snd (feed yes (init_head new) (cut k 12 (render_request (with_method a_get m) ++ [90]))))
                    [1%nat; 3%nat; 90%nat]) [bs "M-SEARCH"; bs "MSEARCH"] =
    [[OError (ErMethod 45); OError (ErMethod 45); OError (ErMethod 45)]; [OFinished; OFinished; OFinished]].
Proof. split; [exact a_get_ok|]. split; [exact search_token|]. vm_compute. reflexivity. Qed.
