(* Heads, wherever the stream is cut into pieces: no condition on the stream is
   left.  Vocabulary: Http1Cuts.v, Http1Reader.v (understood, read_head),
   Http1Spec.v (feed, hok, strip). *)

From Coq Require Import NArith List Bool Arith String.
From Verif Require Import Bytes Http1Model Http1Spec Http1Protocol Http1Wire Http1Reader Http1Cuts Http1CutsFacts Http1CutsMatter.
Import ListNotations.
Local Open Scope N_scope.

(* After init_head. *)
Theorem C68_every_cut_understood : forall h q segs, segs <> [] ->
  understood eq (read_cut_head segs) (feed h (init_head q) segs).
Proof. exact cut_head_understood. Qed.
Print Assumptions C68_every_cut_understood.

(* From new(). *)
Theorem C68_new_understood : forall h segs, segs <> [] ->
  understood eq (read_new_head segs) (feed h new segs).
Proof. exact new_head_understood. Qed.
Print Assumptions C68_new_understood.

(* The pieces matter exactly when fewer than nine bytes of a method beginning
   with H are in the piece in which the message begins. *)
Theorem C68_cuts_that_matter : forall segs,
  read_cut_head segs = read_head (List.concat segs) <->
  hok (strip (List.concat segs)) = true \/ (9 <= List.length (first_part segs))%nat.
Proof. exact cuts_matter_iff. Qed.
Print Assumptions C68_cuts_that_matter.

(* Methods cut after eight and after nine bytes, after white space, and one that
   shares all of "HTTP". *)
Example C68_cut_case :
  map (fun segs => firstn 5 (fst (read_cut_head segs)))
      [[bs "HEAD / H"; bs "TTP/1.1" ++ crlf];  [bs "HEAD / HT"; bs "TP/1.1" ++ crlf];
       [bs "  "; bs " HEAD / HT"; bs "TP/1.1" ++ crlf];  [bs " HEAD"; bs " / HTTP/1.1" ++ crlf];
       [bs "HTTPS"; bs " / HTTP/1.1" ++ crlf]]
  = [map (FByte KMethod) (bs "EAD") ++ [FByte KUrl 47; FEv (EVersion 1 1)];
     map (FByte KMethod) (bs "HEAD") ++ [FByte KUrl 47];
     map (FByte KMethod) (bs "HEAD") ++ [FByte KUrl 47];
     map (FByte KMethod) (bs "EAD") ++ [FByte KUrl 47; FEv (EVersion 1 1)];
     [FByte KMethod 83; FByte KUrl 47; FEv (EVersion 1 1); FEv EInitialFinished]] /\
  map (fun segs => read_cut_head segs)
      [[bs "H"; bs " / HTTP"];  [bs "HT"; bs "TP "];  [bs "H"; []; bs "TTP"];  [[]; bs " "]]
  = [([], Wrong (ErMethod 32));  ([], Wrong (ErMethod 32));  ([], Partial StDetect5);
     ([], Partial StStripDetect)] /\
  map (fun segs => read_new_head segs)
      [[[]; bs "GET"];  [bs " GET"];  [bs "HE"; bs "AD"];  [bs "HTTP/1.1 "; bs "20"]]
  = [([], Crash);  ([], Wrong (ErMethod 32));  (map (FByte KMethod) (bs "EAD"), Partial StRequestMethod);
     ([FEv (EVersion 1 1)], Partial StResponseStatusCode3)].
Proof. vm_compute. repeat split. Qed.

(* The same seen by a client whose handler pauses the parser at every call. *)
Example C68_client_case :
  let no := Handler (fun _ _ => false) (fun _ => None) in
  (let '(_, log, rest, o) := feed no (init_head new) [bs " HEAD"; bs " / HTTP/1.1" ++ crlf ++ crlf ++ bs "x"] in
   (log, rest, o)) =
  ([EData KMethod (bs "EAD"); EData KUrl (bs "/"); EVersion 1 1; EInitialFinished; EHeadersFinished],
   bs "x", OFinished) /\
  (let '(_, log, rest, o) := feed no new [[]; bs "GET"] in (log, rest, o)) = ([], [], OFault FOutOfBounds).
Proof. vm_compute. repeat split. Qed.
