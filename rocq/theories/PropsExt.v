(* White space in chunk extensions: C92.  Vocabulary: spaced, chunk_with, size_begun of
   ExtSpec.v, chunked bodies of Http1Wire.v. *)

From Coq Require Import NArith List Bool Arith String Lia.
From Verif Require Import Bytes Http1Model Http1Spec Http1Protocol Http1Wire FormSamples
  ExtSpec ExtFacts ExtSpace ExtSamples.
Import ListNotations.
Local Open Scope N_scope.
Local Open Scope list_scope.

(* White space before the semicolon or before the equal sign of an extension, which a
   recipient has to parse, is rejected; behind a value it is reported with the value. *)
Theorem C92_spaces_refuted : exists s x y sp d,
  wf_ext x /\ x_value x <> None /\ wf_ext y /\ Forall (fun b => b = 32 \/ b = 9) sp /\ sp <> [] /\
  let ends e := snd (feed yes (init_chunked new) [chunk_with s e d ++ the_end]) in
  map ends [spaced [] [] x; spaced sp [] x; spaced [] sp x; spaced [] [] x ++ spaced sp [] y] =
    [OFinished; OError (ErChunkLength 32); OError (ErChunkExtensionName 32); OFinished] /\
  let values e := let '(_, log, _, _) := feed yes (init_chunked new) [chunk_with s e d ++ the_end] in values_seen log in
  map values [spaced [] [] x ++ spaced [] [] y; spaced [] [] x ++ spaced sp [] y] =
    [bs "v"; bs "v "].
Proof. exact spaces_refused. Qed.
Print Assumptions C92_spaces_refuted.

(* In every case: behind any chunks and the size of the next, or in its place, a byte that is
   no digit and neither CR nor a semicolon ends the body in an error at this byte. *)
Theorem C92_size_followed : forall h q cs s b tail segs,
  Forall wf_chunk cs -> size_begun s -> ~ hexdigit b -> (s = [] \/ b <> 13 /\ b <> 59) ->
  List.concat segs = flat_map render_chunk cs ++ s ++ b :: tail ->
  exists p' log rest, feed h (init_chunked q) segs = (p', log, rest, OError (ErChunkLength b)).
Proof. exact size_followed. Qed.
Print Assumptions C92_size_followed.

Example C92_size_followed_case :
  wf_chunk a_chunk /\ size_begun (bs "3A") /\ ~ hexdigit 32 /\
  map (fun k => parse_chunks (cut k 20 (flat_map render_chunk [a_chunk] ++ bs "3A" ++ 32 :: bs ";a=b" ++ crlf)))
      [1%nat; 4%nat; 90%nat] =
    [OError (ErChunkLength 32); OError (ErChunkLength 32); OError (ErChunkLength 32)].
Proof.
  split; [exact a_chunk_ok|]. split; [exact size_3A|]. split; [exact space_no_digit|]. vm_compute. reflexivity.
Qed.

(* Likewise behind the name of an extension: a byte that cannot be in a name and is neither
   an equal sign nor a semicolon nor CR. *)
Theorem C92_name_followed : forall h q cs s xs w n b tail segs,
  Forall wf_chunk cs -> (1 <= List.length s <= 8)%nat -> Forall hexdigit s -> hd 48 s <> 48 ->
  Forall wf_ext xs -> padding w -> n <> [] -> Forall (fun b => tchar b = true) n ->
  tchar b = false -> b <> 61 -> b <> 13 -> b <> 59 -> b < 255 ->
  List.concat segs = flat_map render_chunk cs ++ s ++ flat_map render_ext xs ++ [59] ++ w ++ n ++ b :: tail ->
  exists p' log rest, feed h (init_chunked q) segs = (p', log, rest, OError (ErChunkExtensionName b)).
Proof. exact name_followed. Qed.
Print Assumptions C92_name_followed.

Example C92_name_followed_case :
  wf_chunk a_chunk /\ wf_ext an_ext /\ Forall (fun b => tchar b = true) (bs "Name") /\ tchar 32 = false /\
  map (fun k => parse_chunks (cut k 40 (flat_map render_chunk [a_chunk] ++ bs "3A" ++ flat_map render_ext [an_ext] ++
                                        [59] ++ [9] ++ bs "Name" ++ 32 :: bs "=b" ++ crlf)))
      [1%nat; 4%nat; 90%nat] =
    [OError (ErChunkExtensionName 32); OError (ErChunkExtensionName 32); OError (ErChunkExtensionName 32)].
Proof.
  split; [exact a_chunk_ok|]. split; [exact an_ext_ok|].
  split; [repeat (constructor; [reflexivity|]); constructor|]. split; [reflexivity|]. vm_compute. reflexivity.
Qed.

(* White space behind the value of an extension, in any chunk, is reported with the value. *)
Theorem C92_value_space : forall h q cs s xs pad n w v sp ys d cs2 ts tail segs,
  Forall wf_chunk cs -> wf_chunk (Chunk s (xs ++ Ext pad n (Some (w, v)) :: ys) d) -> Forall wf_chunk cs2 ->
  Forall wf_header ts -> Forall (fun b => b = 32 \/ b = 9) sp ->
  List.concat segs = render_chunked (cs ++ Chunk s (xs ++ Ext pad n (Some (w, v ++ sp)) :: ys) d :: cs2) ts ++ tail ->
  exists p' log, feed h (init_chunked q) segs = (p', log, tail, OFinished) /\
    flat log = flat_map seen_chunk cs ++
      ([FEv EChunkBegin; FEv (EChunkLength (N.of_nat (List.length d)))] ++ flat_map seen_ext xs ++
       (map (FByte KChunkExtName) (map lower_case n) ++ map (FByte KChunkExtValue) (unquoted Plain v ++ sp) ++ [FEv EChunkExtFinished]) ++
       flat_map seen_ext ys ++ [FEv EChunkExtsFinished] ++ map (FByte KChunkData) d) ++
      seen_chunked cs2 ts.
Proof. exact value_space. Qed.
Print Assumptions C92_value_space.

Example C92_value_space_case :
  wf_chunk (Chunk (bs "3") ([] ++ Ext [] (bs "key") (Some ([], bs "v")) :: []) (bs "one")) /\
  map (fun k => let '(_, log, rest, o) := feed yes (init_chunked new)
                  (cut k 20 (render_chunked ([a_chunk] ++ Chunk (bs "3") ([] ++ Ext [] (bs "key") (Some ([], bs "v" ++ [32; 9])) :: []) (bs "one") :: []) [] ++ bs "Z")) in
                (values_seen log, rest, o)) [1%nat; 4%nat; 90%nat] =
    [(bs "vv" ++ [32; 9], bs "Z", OFinished); (bs "vv" ++ [32; 9], bs "Z", OFinished); (bs "vv" ++ [32; 9], bs "Z", OFinished)].
Proof. split; [exact a_chunk_ok|]. vm_compute. reflexivity. Qed.
