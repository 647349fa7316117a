(* Samples for C90. *)

From Coq Require Import NArith List Bool Arith String Lia.
From Verif Require Import Bytes Http1Model Http1Spec Http1Protocol Http1Wire SizeSpec.
Import ListNotations.
Local Open Scope N_scope.
Local Open Scope list_scope.

(* A body with one chunk whose size is written as s, and the last chunk as z. *)
Definition body (s z d : list byte) : list byte := s ++ crlf ++ d ++ crlf ++ z ++ crlf ++ crlf.

Ltac hexdigits := repeat (apply Forall_cons; [unfold hexdigit; lia|]); apply Forall_nil.

Lemma sizes_refused : exists s1 s2 z d,
  chunk_size s1 /\ chunk_size s2 /\ hexadecimal s1 = N.of_nat (List.length d) /\
  hexadecimal s2 = N.of_nat (List.length d) /\ z <> [] /\ Forall (fun b => b = 48) z /\
  map (fun m => snd (feed yes (init_chunked new) [m]))
      [body s1 [48] d; body s2 [48] d; body (bs "3") z d; body (bs "3") [48] d] =
    [OError (ErChunkLength 51); OError (ErChunkLength 48); OError (ErChunkLength 48); OFinished].
Proof.
  exists [48; 51], [48; 48; 48; 48; 48; 48; 48; 48; 51], [48; 48], (bs "one").
  split; [split; [discriminate|hexdigits]|]. split; [split; [discriminate|hexdigits]|].
  split; [reflexivity|]. split; [reflexivity|]. split; [discriminate|].
  split; [repeat constructor|]. vm_compute. reflexivity.
Qed.

Definition a_chunk : chunk := Chunk (bs "3") [] (bs "one").
Lemma a_chunk_ok : wf_chunk a_chunk.
Proof.
  unfold wf_chunk. cbn. split; [lia|]. split; [hexdigits|]. split; [discriminate|]. split; [reflexivity|constructor].
Qed.

Lemma zeros_size : chunk_size (bs "03").
Proof. split; [discriminate|]. change (bs "03") with [48; 51]. hexdigits. Qed.

Lemma three_size : chunk_size (bs "3").
Proof. split; [discriminate|]. change (bs "3") with [51]. hexdigits. Qed.

Lemma nine : one_more (bs "1000003A") 98.
Proof.
  split; [unfold hexdigit; lia|]. right. split; [reflexivity|]. split; [|discriminate].
  change (bs "1000003A") with [49; 48; 48; 48; 48; 48; 51; 65]. hexdigits.
Qed.
