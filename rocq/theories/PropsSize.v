(* Which chunk sizes are accepted: C90.  Vocabulary: chunk_size, short, one_more of
   SizeSpec.v, chunked bodies of Http1Wire.v. *)

From Coq Require Import NArith List Bool Arith String.
From Verif Require Import Bytes Http1Model Http1Spec Http1Protocol Http1Wire FormSamples
  SizeSpec SizeFacts SizeSamples.
Import ListNotations.
Local Open Scope N_scope.
Local Open Scope list_scope.

(* RFC 7230 allows zeros before a size and several zeros for the last chunk; such bodies
   are rejected. *)
Theorem C90_sizes_refuted : exists s1 s2 z d,
  chunk_size s1 /\ chunk_size s2 /\ hexadecimal s1 = N.of_nat (List.length d) /\
  hexadecimal s2 = N.of_nat (List.length d) /\ z <> [] /\ Forall (fun b => b = 48) z /\
  map (fun m => snd (feed yes (init_chunked new) [m]))
      [body s1 [48] d; body s2 [48] d; body (bs "3") z d; body (bs "3") [48] d] =
    [OError (ErChunkLength 51); OError (ErChunkLength 48); OError (ErChunkLength 48); OFinished].
Proof. exact sizes_refused. Qed.
Print Assumptions C90_sizes_refuted.

(* In every case: a body with one more chunk is understood when the size of this chunk has
   at most eight digits and does not begin with 0, and ends in an error otherwise, however
   it is cut. *)
Theorem C90_sizes : forall h q cs s xs d ts tail segs,
  Forall wf_chunk cs -> chunk_size s -> hexadecimal s = N.of_nat (List.length d) -> d <> [] -> Forall wf_ext xs ->
  Forall wf_header ts ->
  List.concat segs = render_chunked (cs ++ [Chunk s xs d]) ts ++ tail ->
  exists p' log rest o, feed h (init_chunked q) segs = (p', log, rest, o) /\
    (short s /\ o = OFinished /\ rest = tail /\ flat log = seen_chunked (cs ++ [Chunk s xs d]) ts \/
     ~ short s /\ exists b, o = OError (ErChunkLength b)).
Proof. exact size_taken. Qed.
Print Assumptions C90_sizes.

Example C90_sizes_case :
  wf_chunk a_chunk /\ chunk_size (bs "03") /\ ~ short (bs "03") /\ chunk_size (bs "3") /\ short (bs "3") /\
  map (fun s => map (fun k => snd (feed yes (init_chunked new) (cut k 12 (render_chunked ([a_chunk] ++ [Chunk s [] (bs "two")]) [] ++ [90]))))
                    [1%nat; 3%nat; 90%nat]) [bs "03"; bs "3"] =
    [[OError (ErChunkLength 51); OError (ErChunkLength 51); OError (ErChunkLength 51)]; [OFinished; OFinished; OFinished]].
Proof.
  split; [exact a_chunk_ok|]. split; [exact zeros_size|]. split; [intros [_ S]; now apply S|].
  split; [exact three_size|]. split; [split; [apply Nat.leb_le; reflexivity|discriminate]|]. vm_compute. reflexivity.
Qed.

(* Where it ends in an error: at the digit that follows a first 0 - also in the last chunk -
   and at the ninth digit. *)
Theorem C90_digit : forall h q cs u b tail segs, Forall wf_chunk cs -> one_more u b ->
  List.concat segs = flat_map render_chunk cs ++ u ++ b :: tail ->
  exists p' log rest, feed h (init_chunked q) segs = (p', log, rest, OError (ErChunkLength b)).
Proof. exact size_lost. Qed.
Print Assumptions C90_digit.

Example C90_digit_case :
  wf_chunk a_chunk /\ one_more (bs "1000003A") 98 /\
  map (fun k => snd (feed yes (init_chunked new) (cut k 12 (flat_map render_chunk [a_chunk] ++ bs "1000003A" ++ 98 :: crlf))))
      [1%nat; 3%nat; 90%nat] = [OError (ErChunkLength 98); OError (ErChunkLength 98); OError (ErChunkLength 98)].
Proof. split; [exact a_chunk_ok|]. split; [exact nine|]. vm_compute. reflexivity. Qed.
