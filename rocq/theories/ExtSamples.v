(* Samples for C92. *)

From Coq Require Import NArith List Bool Arith String Lia.
From Verif Require Import Bytes Http1Model Http1Spec Http1Protocol Http1Wire Http1Samples FormSamples ExtSpec.
Import ListNotations.
Local Open Scope N_scope.
Local Open Scope list_scope.

Definition an_ext : chunk_ext := Ext [] (bs "key") (Some ([], bs "v")).
Lemma an_ext_ok : wf_ext an_ext.
Proof. wf_tac. Qed.

Definition the_end : list byte := bs "0" ++ crlf ++ crlf.
Definition parse_chunks (s : list (list byte)) : ending := snd (feed yes (init_chunked new) s).

Definition a_chunk : chunk := Chunk (bs "3") [an_ext] (bs "one").
Lemma a_chunk_ok : wf_chunk a_chunk.
Proof.
  unfold wf_chunk. cbn [c_size c_exts c_data a_chunk]. split; [cbn; lia|].
  split; [change (bs "3") with [51]; constructor; [unfold hexdigit; lia|constructor]|].
  split; [discriminate|]. split; [reflexivity|]. constructor; [exact an_ext_ok|constructor].
Qed.

(* The values of extensions among the calls. *)
Definition values_seen (l : list event) : list byte := data_of KChunkExtValue l.

Lemma spaces_refused : exists s x y sp d,
  wf_ext x /\ x_value x <> None /\ wf_ext y /\ Forall (fun b => b = 32 \/ b = 9) sp /\ sp <> [] /\
  let ends e := snd (feed yes (init_chunked new) [chunk_with s e d ++ the_end]) in
  map ends [spaced [] [] x; spaced sp [] x; spaced [] sp x; spaced [] [] x ++ spaced sp [] y] =
    [OFinished; OError (ErChunkLength 32); OError (ErChunkExtensionName 32); OFinished] /\
  let values e := let '(_, log, _, _) := feed yes (init_chunked new) [chunk_with s e d ++ the_end] in values_seen log in
  map values [spaced [] [] x ++ spaced [] [] y; spaced [] [] x ++ spaced sp [] y] =
    [bs "v"; bs "v "].
Proof.
  exists (bs "3"), an_ext, (Ext [] (bs "flag") None), [32], (bs "one").
  split; [exact an_ext_ok|]. split; [discriminate|]. split; [wf_tac|].
  split; [constructor; [now left|constructor]|]. split; [discriminate|].
  split; vm_compute; reflexivity.
Qed.

Lemma space_no_digit : ~ hexdigit 32.
Proof. unfold hexdigit. lia. Qed.
Lemma size_3A : size_begun (bs "3A").
Proof.
  right. right. change (bs "3A") with [51; 65]. split; [cbn; lia|]. split; [|discriminate].
  repeat (constructor; [unfold hexdigit; lia|]). constructor.
Qed.
