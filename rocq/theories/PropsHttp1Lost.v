(* What an error loses: C77.  Vocabulary: loses and bytewise of Http1Lost.v, the
   readers of Http1Reader.v and feed of Http1Spec.v.  The handler h, the cut
   into pieces segs and the parser q, used before or not, are arbitrary. *)

From Coq Require Import NArith List Bool Arith String.
From Verif Require Import Bytes Http1Model Http1Spec Http1Protocol Http1Wire Http1Reader Http1Cuts Http1Lost Http1LostFacts Http1CutErrors Http1NewErrors.
Import ListNotations.
Local Open Scope N_scope.

(* The condition on methods that begin with H is that of C63. *)
Theorem C77_head : forall h q segs p' log rest e, segs <> [] ->
  hok (strip (List.concat segs)) = true \/ (9 <= List.length (strip (hd [] segs)))%nat ->
  feed h (init_head q) segs = (p', log, rest, OError e) ->
  loses e (fst (read_head (List.concat segs))) (byte_count q) segs p' log.
Proof. exact head_lost. Qed.
Print Assumptions C77_head.

(* Without that condition, with the reader of C68. *)
Theorem C77_cut_head : forall h q segs p' log rest e, segs <> [] ->
  feed h (init_head q) segs = (p', log, rest, OError e) ->
  loses e (fst (read_cut_head segs)) (byte_count q) segs p' log.
Proof. exact cut_head_lost. Qed.
Print Assumptions C77_cut_head.

Theorem C77_new_head : forall h segs p' log rest e,
  feed h new segs = (p', log, rest, OError e) ->
  loses e (fst (read_new_head segs)) 0 segs p' log.
Proof. exact new_head_lost. Qed.
Print Assumptions C77_new_head.

Theorem C77_chunked : forall h q segs p' log rest e, segs <> [] ->
  feed h (init_chunked q) segs = (p', log, rest, OError e) ->
  loses e (fst (read_chunked (List.concat segs))) (byte_count q) segs p' log.
Proof. exact chunked_lost. Qed.
Print Assumptions C77_chunked.

Theorem C77_url_encoded : forall h q n segs p' log rest e, segs <> [] ->
  feed h (set_length (init_url_encoded q) n) segs = (p', log, rest, OError e) ->
  loses e (fst (read_url_encoded n (List.concat segs))) (byte_count q) segs p' log.
Proof. exact url_lost. Qed.
Print Assumptions C77_url_encoded.

Theorem C77_multipart : forall h clen q bd segs p' log rest e, segs <> [] ->
  (forall l, h_clen h l = clen (flat l)) ->
  ~ In 13 bd -> N.of_nat (List.length bd) <= 2 ^ 14 ->
  feed h (set_boundary (init_multipart q) bd) segs = (p', log, rest, OError e) ->
  loses e (fst (read_multipart bd clen (List.concat segs))) (byte_count q) segs p' log.
Proof. exact multipart_lost. Qed.
Print Assumptions C77_multipart.

(* A client that feeds single bytes loses nothing. *)
Theorem C77_head_bytewise : forall h q s p' log rest e, hok (strip s) = true ->
  feed h (init_head q) (bytewise s) = (p', log, rest, OError e) -> flat log = fst (read_head s).
Proof. exact head_bytewise. Qed.
Print Assumptions C77_head_bytewise.

Theorem C77_cut_head_bytewise : forall h q s p' log rest e,
  feed h (init_head q) (bytewise s) = (p', log, rest, OError e) -> flat log = fst (head_from false (strip s)).
Proof. exact cut_head_bytewise. Qed.
Print Assumptions C77_cut_head_bytewise.

Theorem C77_new_bytewise : forall h s p' log rest e,
  feed h new (bytewise s) = (p', log, rest, OError e) -> flat log = fst (head_from false s).
Proof. exact new_head_bytewise. Qed.
Print Assumptions C77_new_bytewise.

Theorem C77_chunked_bytewise : forall h q s p' log rest e,
  feed h (init_chunked q) (bytewise s) = (p', log, rest, OError e) -> flat log = fst (read_chunked s).
Proof. exact chunked_bytewise. Qed.
Print Assumptions C77_chunked_bytewise.

Theorem C77_url_encoded_bytewise : forall h q n s p' log rest e,
  feed h (set_length (init_url_encoded q) n) (bytewise s) = (p', log, rest, OError e) ->
  flat log = fst (read_url_encoded n s).
Proof. exact url_bytewise. Qed.
Print Assumptions C77_url_encoded_bytewise.

Theorem C77_multipart_bytewise : forall h clen q bd s p' log rest e,
  (forall l, h_clen h l = clen (flat l)) ->
  ~ In 13 bd -> N.of_nat (List.length bd) <= 2 ^ 14 ->
  feed h (set_boundary (init_multipart q) bd) (bytewise s) = (p', log, rest, OError e) ->
  flat log = fst (read_multipart bd clen s).
Proof. exact multipart_bytewise. Qed.
Print Assumptions C77_multipart_bytewise.

(* "/a" of the URL is lost when it is in the piece of the wrong byte 7; of
   "/ab" only the "b" is lost when the cut is before it; byte by byte nothing
   is. *)
Example C77_case :
  let yes := Handler (fun _ _ => true) (fun _ => None) in
  let run segs := let '(p, log, _, o) := feed yes (init_head new) segs in (log, o, byte_count p) in
  run [bs "GET /a" ++ [7] ++ bs "x"] = ([EData KMethod (bs "GET")], OError (ErUrl 7), 7) /\
  run [bs "GET /a"; bs "b" ++ [7] ++ bs "x"] =
    ([EData KMethod (bs "GET"); EData KUrl (bs "/a")], OError (ErUrl 7), 8) /\
  read_head (bs "GET /ab" ++ [7] ++ bs "x") =
    (map (FByte KMethod) (bs "GET") ++ map (FByte KUrl) (bs "/ab"), Wrong (ErUrl 7)) /\
  (let '(log, o, n) := run (bytewise (bs "GET /ab" ++ [7] ++ bs "x")) in (flat log, o, n)) =
    (map (FByte KMethod) (bs "GET") ++ map (FByte KUrl) (bs "/ab"), OError (ErUrl 7), 8).
Proof. vm_compute. repeat split. Qed.

(* Of the method HEAD, cut after the second letter, the H is not part of what is
   read (C08, C68); the error loses the D. *)
Example C77_cut_head_case :
  let run segs := let '(p, log, _, o) := feed (Handler (fun _ _ => true) (fun _ => None)) (init_head new) segs in
                  (log, o, byte_count p) in
  run [bs "HE"; bs "A"; bs "D" ++ [7]] =
    ([EData KMethod (bs "E"); EData KMethod (bs "A")], OError (ErMethod 7), 5) /\
  read_cut_head [bs "HE"; bs "A"; bs "D" ++ [7]] = (map (FByte KMethod) (bs "EAD"), Wrong (ErMethod 7)).
Proof. vm_compute. repeat split. Qed.

(* The same from new(). *)
Example C77_new_case :
  let run segs := let '(p, log, _, o) := feed (Handler (fun _ _ => true) (fun _ => None)) new segs in
                  (log, o, byte_count p) in
  run [bs "GET /a"; bs "b" ++ [7] ++ bs "x"] =
    ([EData KMethod (bs "GET"); EData KUrl (bs "/a")], OError (ErUrl 7), 8) /\
  fst (read_new_head [bs "GET /a"; bs "b" ++ [7] ++ bs "x"]) =
    map (FByte KMethod) (bs "GET") ++ map (FByte KUrl) (bs "/ab").
Proof. vm_compute. repeat split. Qed.
