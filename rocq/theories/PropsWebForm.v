(* The parser and QueryIterator receive URL-encoded forms: C84.
   Vocabulary: receive_post, receive_get, body_pairs, url_pairs, form_text, query_gives of
   WebFormSpec.v, render_request of Http1Wire.v, work of Http1Program.v. *)

From Coq Require Import NArith List Bool Arith String.
From Verif Require Import Bytes Http1Model Http1Spec Http1Wire Http1Program UtilModel
  FormSpec FormSamples WebFormSpec WebFormSamples WebFormFacts.
Import ListNotations.
Local Open Scope N_scope.
Local Open Scope list_scope.

(* Of a form in the body of a request, in any segmentation and on a parser with any
   past, the program gets back every name and every value, in order; what comes
   behind the form is left unread. *)
Theorem C84_post_received : forall h clen p req ds xs tail segs,
  (forall l, h_clen h l = clen (flat l)) ->
  wf_request req -> hd 0 (q_method req) <> 72 ->
  field_says (q_headers req) "content-length" ds -> ds <> [] -> Forall digit ds ->
  decimal ds = N.of_nat (List.length (form_text xs)) ->
  Forall (fun x => Forall (fun b : byte => b < 256) (fst x) /\ Forall (fun b : byte => b < 256) (snd x)) xs ->
  List.concat segs = render_request req ++ form_text xs ++ tail ->
  exists p' log segs', work 2 h receive_post p [] segs = (p', log, segs', OFinished) /\
    List.concat segs' = tail /\ body_pairs (flat log) = xs.
Proof. exact post_received. Qed.
Print Assumptions C84_post_received.

Example C84_post_received_case :
  wf_request post_request /\ hd 0 (q_method post_request) <> 72 /\
  field_says (q_headers post_request) "content-length" (bs "043") /\
  decimal (bs "043") = N.of_nat (List.length (form_text web_fields)) /\
  Forall (fun x => Forall (fun b : byte => b < 256) (fst x) /\ Forall (fun b : byte => b < 256) (snd x)) web_fields /\
  form_text web_fields = bs "user+name=Ann+%26+Bob&e=&x*=%C3%A4%0A%00%FF" /\
  (let '(_, log, segs, o) := work 2 yes receive_post new []
     (cut 7 30 (render_request post_request ++ form_text web_fields ++ bs "GET")) in
   (body_pairs (flat log), List.concat segs, o)) = (web_fields, bs "GET", OFinished).
Proof.
  split; [exact post_request_ok|]. split; [discriminate|]. split; [reflexivity|]. split; [reflexivity|].
  split; [apply octets_checked; reflexivity|]. split; vm_compute; reflexivity.
Qed.

(* Of a form in the URL it gets back exactly the pairs before the first one whose name
   is written with an escape, and none at all if the first name is empty. *)
Theorem C84_get_received : forall h clen p req path xs tail segs,
  (forall l, h_clen h l = clen (flat l)) ->
  wf_request req -> hd 0 (q_method req) <> 72 ->
  q_url req = path ++ [63] ++ form_text xs -> ~ In 63 path ->
  Forall (fun x => Forall (fun b : byte => b < 256) (fst x) /\ Forall (fun b : byte => b < 256) (snd x)) xs ->
  List.concat segs = render_request req ++ tail ->
  exists p' log segs', work 2 h receive_get p [] segs = (p', log, segs', OFinished) /\
    List.concat segs' = tail /\ url_pairs (flat log) = query_gives xs.
Proof. exact get_received. Qed.
Print Assumptions C84_get_received.

Example C84_get_received_case :
  wf_request (get_request odd_fields) /\
  q_url (get_request odd_fields) = bs "/form" ++ [63] ++ form_text odd_fields /\
  q_url (get_request odd_fields) = bs "/form?a=1&b%5B%5D=2&c=3" /\
  (let '(_, log, segs, o) := work 2 yes receive_get new [] (cut 7 30 (render_request (get_request odd_fields) ++ bs "GET")) in
   (url_pairs (flat log), List.concat segs, o)) = ([(bs "a", bs "1")], bs "GET", OFinished).
Proof.
  split; [apply get_request_ok; reflexivity|]. split; [reflexivity|]. split; vm_compute; reflexivity.
Qed.

(* So it gets all of them if the names consist of letters, digits, spaces and "*-._" and
   the first one is not empty. *)
Theorem C84_plain_names : forall xs,
  Forall (fun x => plain x = true) xs -> match xs with x :: _ => fst x <> [] | [] => True end ->
  query_gives xs = xs.
Proof. exact plain_all. Qed.
Print Assumptions C84_plain_names.

Example C84_plain_names_case :
  Forall (fun x => plain x = true) web_fields /\
  (let '(_, log, _, o) := work 2 yes receive_get new [] [render_request (get_request web_fields)] in
   (url_pairs (flat log), o)) = (web_fields, OFinished).
Proof. split; [repeat constructor|vm_compute; reflexivity]. Qed.

(* Without this condition all but the first pair may be lost, though no name is empty and
   the form is written as every user agent does. *)
Theorem C84_get_refuted : exists req path xs,
  wf_request req /\ hd 0 (q_method req) <> 72 /\ q_url req = path ++ [63] ++ form_text xs /\ ~ In 63 path /\
  Forall (fun x => Forall (fun b : byte => b < 256) (fst x) /\ Forall (fun b : byte => b < 256) (snd x)) xs /\
  Forall (fun x => fst x <> []) xs /\
  let '(_, log, _, o) := work 2 yes receive_get new [] [render_request req] in
  o = OFinished /\ url_pairs (flat log) = [hd ([], []) xs] /\ (1 < List.length xs)%nat.
Proof. exact get_incomplete. Qed.
Print Assumptions C84_get_refuted.
