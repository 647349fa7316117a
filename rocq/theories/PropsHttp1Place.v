(* Where an error is noticed: C74.  Vocabulary: the readers of Http1Reader.v
   and feed of Http1Spec.v.  The error is reported at the first byte that makes
   the stream wrong, not later and not earlier: the bytes x before it are the
   beginning of a message (the reader asks for more), with the byte b they are
   not, and byte_count(), which was byte_count q before, tells the place.  The
   handler h, the cut into pieces segs and the parser q, used before or not,
   are arbitrary. *)

From Coq Require Import NArith List Bool Arith String.
From Verif Require Import Bytes Http1Model Http1Spec Http1Protocol Http1Wire Http1Reader Http1Cuts Http1Place Http1CutErrors Http1NewErrors.
Import ListNotations.
Local Open Scope N_scope.

(* The condition on methods that begin with H is that of C63. *)
Theorem C74_head_place : forall h q segs p' log rest e, segs <> [] ->
  hok (strip (List.concat segs)) = true \/ (9 <= List.length (strip (hd [] segs)))%nat ->
  feed h (init_head q) segs = (p', log, rest, OError e) ->
  exists x b y, List.concat segs = x ++ b :: y /\
    byte_count p' = byte_count q + N.of_nat (S (List.length x)) /\
    (exists at_, snd (read_head x) = Partial at_) /\ snd (read_head (x ++ [b])) = Wrong e.
Proof. exact head_place. Qed.
Print Assumptions C74_head_place.

(* Without that condition, with the reader of C68; enough: at least nine bytes of
   the message are in the piece in which it begins. *)
Theorem C74_cut_head_place : forall h q segs p' log rest e, segs <> [] ->
  feed h (init_head q) segs = (p', log, rest, OError e) ->
  let enough := (9 <=? List.length (first_part segs))%nat in
  exists x b y, List.concat segs = x ++ b :: y /\
    byte_count p' = byte_count q + N.of_nat (S (List.length x)) /\
    (exists at_, snd (head_from enough (strip x)) = Partial at_) /\
    snd (head_from enough (strip (x ++ [b]))) = Wrong e.
Proof. exact cut_head_place. Qed.
Print Assumptions C74_cut_head_place.

(* From new(): white space is not skipped. *)
Theorem C74_new_place : forall h segs p' log rest e,
  feed h new segs = (p', log, rest, OError e) ->
  let enough := (9 <=? List.length (hd [] segs))%nat in
  exists x b y, List.concat segs = x ++ b :: y /\
    byte_count p' = N.of_nat (S (List.length x)) /\
    (exists at_, snd (head_from enough x) = Partial at_) /\
    snd (head_from enough (x ++ [b])) = Wrong e.
Proof. exact new_head_place. Qed.
Print Assumptions C74_new_place.

Theorem C74_chunked_place : forall h q segs p' log rest e, segs <> [] ->
  feed h (init_chunked q) segs = (p', log, rest, OError e) ->
  exists x b y, List.concat segs = x ++ b :: y /\
    byte_count p' = byte_count q + N.of_nat (S (List.length x)) /\
    (exists at_, snd (read_chunked x) = Partial at_) /\ snd (read_chunked (x ++ [b])) = Wrong e.
Proof. exact chunked_place. Qed.
Print Assumptions C74_chunked_place.

Theorem C74_url_encoded_place : forall h q n segs p' log rest e, segs <> [] ->
  feed h (set_length (init_url_encoded q) n) segs = (p', log, rest, OError e) ->
  exists x b y, List.concat segs = x ++ b :: y /\
    byte_count p' = byte_count q + N.of_nat (S (List.length x)) /\
    (exists at_, snd (read_url_encoded n x) = Partial at_) /\ snd (read_url_encoded n (x ++ [b])) = Wrong e.
Proof. exact url_place. Qed.
Print Assumptions C74_url_encoded_place.

(* A boundary is compared with all of the bytes at hand.  An error about it may
   therefore be noticed before the byte that differs, but within the length of
   the boundary. *)
Theorem C74_multipart_place : forall h clen q bd segs p' log rest e, segs <> [] ->
  (forall l, h_clen h l = clen (flat l)) ->
  ~ In 13 bd -> N.of_nat (List.length bd) <= 2 ^ 14 ->
  feed h (set_boundary (init_multipart q) bd) segs = (p', log, rest, OError e) ->
  exists x b y e', List.concat segs = x ++ b :: y /\
    (exists at_, snd (read_multipart bd clen x) = Partial at_) /\
    snd (read_multipart bd clen (x ++ [b])) = Wrong e' /\ same_kind e e' /\
    match e with
    | ErMultipartBoundary _ =>
        byte_count p' <= byte_count q + N.of_nat (S (List.length x)) < byte_count p' + N.max 1 (N.of_nat (List.length bd))
    | _ => byte_count p' = byte_count q + N.of_nat (S (List.length x))
    end.
Proof. exact multipart_place. Qed.
Print Assumptions C74_multipart_place.

(* The place of such an error does depend on the cut. *)
Theorem C74_boundary_place_refuted : exists bd segs1 segs2 b1 b2,
  List.concat segs1 = List.concat segs2 /\
  let '(p1, _, _, o1) := feed yes (set_boundary (init_multipart new) bd) segs1 in
  let '(p2, _, _, o2) := feed yes (set_boundary (init_multipart new) bd) segs2 in
  (o1, byte_count p1) = (OError (ErMultipartBoundary b1), 3) /\
  (o2, byte_count p2) = (OError (ErMultipartBoundary b2), 5).
Proof. exact boundary_place. Qed.
Print Assumptions C74_boundary_place_refuted.

(* A space in a header name, cut in two ways; the bytes after it are not read. *)
Example C74_head_case :
  let x := bs "GET / HTTP/1.1" ++ crlf ++ bs "a" in
  hok (strip (x ++ bs " b: c")) = true /\
  map (fun segs => let '(p, _, _, o) := feed yes (init_head new) segs in (byte_count p, o))
      [[x ++ bs " b: c"]; map (fun b => [b]) x ++ [bs " b"; bs ": c"]]
  = [(18, OError (ErHeaderName 32)); (18, OError (ErHeaderName 32))] /\
  map (fun s => snd (read_head s)) [x; x ++ [32]] = [Partial StLowerHeaderName; Wrong (ErHeaderName 32)].
Proof. vm_compute. repeat split. Qed.

(* The method of one letter is lost, if it is cut off: the space after it is then
   the wrong byte, instead of the one in the header name. *)
Example C74_cut_head_case :
  map (fun segs => let '(p, _, _, o) := feed yes (init_head new) segs in (byte_count p, o))
      [[bs " H / HTTP/1.1" ++ crlf ++ bs "a b"]; [bs " H"; bs " / HTTP/1.1" ++ crlf ++ bs "a b"]]
  = [(17, OError (ErHeaderName 32)); (3, OError (ErMethod 32))] /\
  map (fun s => snd (head_from false (strip s))) [bs " H"; bs " H "] = [Partial StDetect2; Wrong (ErMethod 32)].
Proof. vm_compute. repeat split. Qed.

Example C74_new_case :
  map (fun segs => let '(p, _, _, o) := feed yes new segs in (byte_count p, o))
      [[bs "GET / HTTP/1."; bs "x"]; [bs " GET / HTTP/1.x"]; [bs "H"; bs "HTTP/1.x"]]
  = [(14, OError (ErVersion 120)); (1, OError (ErMethod 32)); (6, OError (ErMethod 47))].
Proof. vm_compute. repeat split. Qed.

Example C74_body_case :
  map (fun segs => let '(p, _, _, o) := feed yes (init_chunked new) segs in (byte_count p, o))
      [[bs "1" ++ crlf ++ bs "abc"]; [bs "1" ++ crlf; bs "a"; bs "bc"]]
  = [(5, OError (ErCrlfSequence 98)); (5, OError (ErCrlfSequence 98))] /\
  map (fun segs => let '(p, _, _, o) := feed yes (set_length (init_url_encoded new) 9) segs in (byte_count p, o))
      [[bs "ab=c%zzz"]; [bs "ab="; bs "c%"; bs "zzz"]]
  = [(6, OError (ErUrlEncodedValue 122)); (6, OError (ErUrlEncodedValue 122))] /\
  map (fun segs => let '(p, _, _, o) := feed yes (set_boundary (init_multipart new) (bs "b")) segs in (byte_count p, o))
      [[bs "--b" ++ crlf ++ bs "a b"]; [bs "--b" ++ crlf ++ bs "a"; bs " b"]]
  = [(7, OError (ErHeaderName 32)); (7, OError (ErHeaderName 32))].
Proof. vm_compute. repeat split. Qed.
