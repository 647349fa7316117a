(* Preambles and padding of multipart bodies: C91.  Vocabulary: framed, transport_padding of
   PreambleSpec.v, multipart bodies of Http1Wire.v. *)

From Coq Require Import NArith List Bool Arith String.
From Verif Require Import Bytes Http1Model Http1Spec Http1Protocol Http1Wire FormSamples
  PreambleSpec PreambleFacts PreambleMore PreambleSamples.
Import ListNotations.
Local Open Scope N_scope.
Local Open Scope list_scope.

(* RFC 2046 allows a preamble, also an empty one, before the first delimiter, and white
   space behind a boundary; such bodies are rejected. *)
Theorem C91_framing_refuted : exists bd t pad rest ps,
  Forall wf_part ps /\ framed bd None [] rest = render_multipart bd ps /\ transport_padding pad /\ t <> [] /\
  map (fun m => snd (feed yes (set_boundary (init_multipart new) bd) [m]))
      [framed bd (Some t) [] rest; framed bd (Some []) [] rest; framed bd None pad rest; framed bd None [] rest] =
    [OError (ErMultipartBoundary 84); OError (ErMultipartBoundary 13); OError (ErMultipartBoundary 32); OFinished].
Proof. exact framing_refused. Qed.
Print Assumptions C91_framing_refuted.

(* In every case: a body that agrees with the first delimiter up to x and continues with
   another byte b ends in an error with nothing reported, however it is cut. *)
Theorem C91_delimiter_first : forall h clen q bd x z b tail segs,
  (forall l, h_clen h l = clen (flat l)) ->
  ~ In 13 bd -> N.of_nat (List.length bd) <= 2 ^ 14 ->
  bs "--" ++ bd = x ++ z -> z <> [] -> Some b <> nth_error z 0 ->
  List.concat segs = x ++ b :: tail ->
  exists p' log b', feed h (set_boundary (init_multipart q) bd) segs = (p', log, [], OError (ErMultipartBoundary b')) /\
    flat log = [].
Proof. exact preamble_lost. Qed.
Print Assumptions C91_delimiter_first.

Example C91_delimiter_first_case :
  bs "--" ++ bs "b" = bs "-" ++ bs "-b" /\ Some 120 <> nth_error (bs "-b") 0 /\
  map (fun k => parse_body (cut k 12 (bs "-" ++ 120 :: framed (bs "b") None [] inner))) [1%nat; 2%nat; 90%nat] =
    [OError (ErMultipartBoundary 120); OError (ErMultipartBoundary 120); OError (ErMultipartBoundary 120)].
Proof. split; [reflexivity|]. split; [discriminate|]. vm_compute. reflexivity. Qed.

(* Hence every preamble that does not itself begin with the delimiter is rejected. *)
Theorem C91_preamble : forall h clen q bd t pad rest segs,
  (forall l, h_clen h l = clen (flat l)) ->
  ~ In 13 bd -> N.of_nat (List.length bd) <= 2 ^ 14 ->
  (forall u, t <> bs "--" ++ bd ++ u) ->
  List.concat segs = framed bd (Some t) pad rest ->
  exists p' log b', feed h (set_boundary (init_multipart q) bd) segs = (p', log, [], OError (ErMultipartBoundary b')) /\
    flat log = [].
Proof. exact preamble_rejected. Qed.
Print Assumptions C91_preamble.

Example C91_preamble_case :
  (forall u, bs "--a" <> bs "--" ++ bs "b" ++ u) /\
  map (fun k => parse_body (cut k 12 (framed (bs "b") (Some (bs "--a")) [] inner))) [1%nat; 2%nat; 90%nat] =
    [OError (ErMultipartBoundary 97); OError (ErMultipartBoundary 97); OError (ErMultipartBoundary 97)].
Proof. split; [intros u; discriminate|]. vm_compute. reflexivity. Qed.

(* Behind any parts: a byte behind a boundary that is neither CR nor a hyphen, white space
   in particular, ends the body in an error, with the parts before it reported. *)
Theorem C91_padding : forall h clen q bd ps b tail segs,
  (forall l, h_clen h l = clen (flat l)) ->
  ~ In 13 bd -> N.of_nat (List.length bd) <= 2 ^ 14 ->
  Forall wf_part ps -> answers clen [] ps -> b <> 13 -> b <> 45 ->
  List.concat segs = bs "--" ++ bd ++ flat_map (render_part bd) ps ++ b :: tail ->
  exists p' log b', feed h (set_boundary (init_multipart q) bd) segs = (p', log, [], OError (ErMultipartBoundary b')) /\
    flat log = flat_map seen_part ps.
Proof. exact padding_lost. Qed.
Print Assumptions C91_padding.

Example C91_padding_case :
  Forall wf_part [one_part] /\ answers (fun _ => None) [] [one_part] /\
  map (fun k => parse_body (cut k 30 (bs "--" ++ bs "b" ++ flat_map (render_part (bs "b")) [one_part] ++ 32 :: crlf ++ inner)))
      [1%nat; 5%nat; 90%nat] =
    [OError (ErMultipartBoundary 32); OError (ErMultipartBoundary 32); OError (ErMultipartBoundary 32)].
Proof.
  split; [constructor; [exact one_part_ok|constructor]|]. split; [split; [reflexivity|exact I]|]. vm_compute. reflexivity.
Qed.
