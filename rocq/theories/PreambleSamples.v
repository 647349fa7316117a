(* Samples for C91. *)

From Coq Require Import NArith List Bool Arith String Lia.
From Verif Require Import Bytes Http1Model Http1Spec Http1Protocol Http1Wire Http1Samples FormSamples PreambleSpec.
Import ListNotations.
Local Open Scope N_scope.
Local Open Scope list_scope.

Definition one_part : part := Part [Header (bs "A") [] (bs "b") []] (bs "data") None.
Lemma one_part_ok : wf_part one_part.
Proof. wf_tac. Qed.

(* The body with one part, behind the CRLF of its first boundary. *)
Definition inner : list byte :=
  render_headers (m_headers one_part) ++ m_data one_part ++ crlf ++ bs "--b--".

Lemma inner_whole : framed (bs "b") None [] inner = render_multipart (bs "b") [one_part].
Proof. vm_compute. reflexivity. Qed.

Definition parse_body (s : list (list byte)) : ending := snd (feed yes (set_boundary (init_multipart new) (bs "b")) s).

Lemma framing_refused : exists bd t pad rest ps,
  Forall wf_part ps /\ framed bd None [] rest = render_multipart bd ps /\ transport_padding pad /\ t <> [] /\
  map (fun m => snd (feed yes (set_boundary (init_multipart new) bd) [m]))
      [framed bd (Some t) [] rest; framed bd (Some []) [] rest; framed bd None pad rest; framed bd None [] rest] =
    [OError (ErMultipartBoundary 84); OError (ErMultipartBoundary 13); OError (ErMultipartBoundary 32); OFinished].
Proof.
  exists (bs "b"), (bs "Text"), [32], inner, [one_part].
  split; [constructor; [exact one_part_ok|constructor]|]. split; [exact inner_whole|].
  split; [constructor; [now left|constructor]|]. split; [discriminate|]. vm_compute. reflexivity.
Qed.
