(* A program at work on a connection of arbitrary bytes: C78.  Vocabulary:
   Http1Program.v (the program, the readings of a connection), Http1Reader.v and
   Http1Cuts.v (the readings of single messages), flat of Http1Spec.v. *)

From Coq Require Import NArith List Bool Arith String.
From Verif Require Import Bytes Http1Model Http1Spec Http1Reader Http1Conn Http1Cuts Http1Program Http1ProgramSamples
  Http1ProgramFacts.
Import ListNotations.
Local Open Scope N_scope.

(* Whatever arrives, wherever it is cut, wherever the handler pauses, whatever
   parser is used. *)
Theorem C78_program_understood : forall h clen next n p segs,
  (forall l, h_clen h l = clen (flat l)) -> good_boundaries next -> segs <> [] ->
  goes (read_all n clen next [] segs) (work n h next p [] segs).
Proof. exact program_understood. Qed.
Print Assumptions C78_program_understood.

(* The cuts do not matter, except for methods that begin with H. *)
Theorem C78_cuts_do_not_matter : forall h clen next n p segs,
  (forall l, h_clen h l = clen (flat l)) -> good_boundaries next -> segs <> [] ->
  plain_heads n clen next [] (List.concat segs) ->
  goes (read_stream n clen next [] (List.concat segs)) (work n h next p [] segs).
Proof. exact program_stream. Qed.
Print Assumptions C78_cuts_do_not_matter.

(* Four messages with two bytes after them; the same with the last byte missing
   and with a wrong byte in the second body. *)
Example C78_case :
  let none := fun _ : list fevent => None in
  good_boundaries sample_program /\
  plain_heads 9 none sample_program [] (sample_stream ++ [1; 2]) /\
  snd (read_stream 9 none sample_program [] (sample_stream ++ [1; 2])) = Complete [1; 2] /\
  read_all 9 none sample_program [] [firstn 77%nat sample_stream; []; skipn 77%nat sample_stream ++ [1]; [2]] =
  read_stream 9 none sample_program [] (sample_stream ++ [1; 2]) /\
  (let '(_, log, segs, o) :=
     work 9 (Handler (fun _ _ => false) (fun _ => None)) sample_program new [] [firstn 200%nat sample_stream; skipn 200%nat sample_stream ++ [1]; [2]] in
   (segs, o) = ([[1]; [2]], OFinished) /\
   filter (fun e => match e with EData KUrl _ | EData KChunkData _ | EData KUrlValue _ | EData KMultipartData _ => true
                               | _ => false end) log =
   [EData KUrl (bs "/a"); EData KChunkData (bs "xy"); EData KUrl (bs "/b"); EData KUrlValue (bs "v");
    EData KUrl (bs "/c"); EData KMultipartData (bs "z"); EData KUrl (bs "/d")]) /\
  snd (read_stream 9 none sample_program [] (removelast sample_stream)) = Partial StHeaderLf2 /\
  snd (read_stream 9 none sample_program [] (firstn 100%nat sample_stream ++ [0])) = Wrong (ErUrlEncodedName 0).
Proof.
  split; [|vm_compute; repeat split; (reflexivity || discriminate)].
  intros l bd. unfold sample_program.
  destruct (last_field _ _ l); [discriminate|]. destruct (last_field _ _ l); [|destruct (last_field _ _ l); [discriminate|]; destruct (last_field _ _ l); discriminate].
  intros [= <-]. split; [|vm_compute; discriminate]. intros [X|[]]. discriminate X.
Qed.

(* A HEAD request after a body, cut: the pieces matter. *)
Example C78_head_case :
  let none := fun _ : list fevent => None in
  let next := fun l : list fevent => match l with [] => Some AChunked | _ => Some AHead end in
  let s1 := line "0" ++ line "" ++ bs "HEA" in
  let s2 := bs "D / HTTP/1.1" ++ [13; 10; 13; 10] in
  ~ plain_heads 2 none next [] (s1 ++ s2) /\
  read_all 2 none next [] [s1; s2] <> read_stream 2 none next [] (s1 ++ s2) /\
  (let '(_, log, segs, o) := work 2 yes next new [] [s1; s2] in
   (List.concat segs, o) = ([], OFinished) /\ data_of KMethod log = bs "EAD" /\
   flat log = fst (read_all 2 none next [] [s1; s2])).
Proof. vm_compute. repeat split; try discriminate. intros [_ [X _]]. discriminate (X eq_refl). Qed.
